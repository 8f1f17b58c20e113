(** Assignments of the two files of the runtime that fill the table of kernels, copied from
    skel/simint/ostei/ostei_init.c and skel/simint/ostei/ostei_deriv1_init.c.  Each guarded group is the
    number in its [#if] line and its assignments; an assignment is the last four subscripts and the four
    letters of the function's name.  The first subscript (0 and 1) and the beginning of the name
    ([ostei_] and [ostei_deriv1_]) are the same in all lines of a file. *)
From Coq Require Import String List.
Import ListNotations.
Local Open Scope string_scope.

(** ostei_init.c:29-4146. *)
Definition init0_groups : list (nat * list (nat * nat * nat * nat * string)) :=
  [(0, [(0, 0, 0, 0, "ssss")]);
   (1, [(0, 0, 0, 1, "sssp"); (0, 0, 1, 0, "ssps"); (0, 0, 1, 1, "sspp"); (0, 1, 0, 0, "spss");
    (0, 1, 0, 1, "spsp"); (0, 1, 1, 0, "spps"); (0, 1, 1, 1, "sppp"); (1, 0, 0, 0, "psss");
    (1, 0, 0, 1, "pssp"); (1, 0, 1, 0, "psps"); (1, 0, 1, 1, "pspp"); (1, 1, 0, 0, "ppss");
    (1, 1, 0, 1, "ppsp"); (1, 1, 1, 0, "ppps"); (1, 1, 1, 1, "pppp")]);
   (2, [(0, 0, 0, 2, "sssd"); (0, 0, 1, 2, "sspd"); (0, 0, 2, 0, "ssds"); (0, 0, 2, 1, "ssdp");
    (0, 0, 2, 2, "ssdd"); (0, 1, 0, 2, "spsd"); (0, 1, 1, 2, "sppd"); (0, 1, 2, 0, "spds");
    (0, 1, 2, 1, "spdp"); (0, 1, 2, 2, "spdd"); (0, 2, 0, 0, "sdss"); (0, 2, 0, 1, "sdsp");
    (0, 2, 0, 2, "sdsd"); (0, 2, 1, 0, "sdps"); (0, 2, 1, 1, "sdpp"); (0, 2, 1, 2, "sdpd");
    (0, 2, 2, 0, "sdds"); (0, 2, 2, 1, "sddp"); (0, 2, 2, 2, "sddd"); (1, 0, 0, 2, "pssd");
    (1, 0, 1, 2, "pspd"); (1, 0, 2, 0, "psds"); (1, 0, 2, 1, "psdp"); (1, 0, 2, 2, "psdd");
    (1, 1, 0, 2, "ppsd"); (1, 1, 1, 2, "pppd"); (1, 1, 2, 0, "ppds"); (1, 1, 2, 1, "ppdp");
    (1, 1, 2, 2, "ppdd"); (1, 2, 0, 0, "pdss"); (1, 2, 0, 1, "pdsp"); (1, 2, 0, 2, "pdsd");
    (1, 2, 1, 0, "pdps"); (1, 2, 1, 1, "pdpp"); (1, 2, 1, 2, "pdpd"); (1, 2, 2, 0, "pdds");
    (1, 2, 2, 1, "pddp"); (1, 2, 2, 2, "pddd"); (2, 0, 0, 0, "dsss"); (2, 0, 0, 1, "dssp");
    (2, 0, 0, 2, "dssd"); (2, 0, 1, 0, "dsps"); (2, 0, 1, 1, "dspp"); (2, 0, 1, 2, "dspd");
    (2, 0, 2, 0, "dsds"); (2, 0, 2, 1, "dsdp"); (2, 0, 2, 2, "dsdd"); (2, 1, 0, 0, "dpss");
    (2, 1, 0, 1, "dpsp"); (2, 1, 0, 2, "dpsd"); (2, 1, 1, 0, "dpps"); (2, 1, 1, 1, "dppp");
    (2, 1, 1, 2, "dppd"); (2, 1, 2, 0, "dpds"); (2, 1, 2, 1, "dpdp"); (2, 1, 2, 2, "dpdd");
    (2, 2, 0, 0, "ddss"); (2, 2, 0, 1, "ddsp"); (2, 2, 0, 2, "ddsd"); (2, 2, 1, 0, "ddps");
    (2, 2, 1, 1, "ddpp"); (2, 2, 1, 2, "ddpd"); (2, 2, 2, 0, "ddds"); (2, 2, 2, 1, "dddp");
    (2, 2, 2, 2, "dddd")]);
   (3, [(0, 0, 0, 3, "sssf"); (0, 0, 1, 3, "sspf"); (0, 0, 2, 3, "ssdf"); (0, 0, 3, 0, "ssfs");
    (0, 0, 3, 1, "ssfp"); (0, 0, 3, 2, "ssfd"); (0, 0, 3, 3, "ssff"); (0, 1, 0, 3, "spsf");
    (0, 1, 1, 3, "sppf"); (0, 1, 2, 3, "spdf"); (0, 1, 3, 0, "spfs"); (0, 1, 3, 1, "spfp");
    (0, 1, 3, 2, "spfd"); (0, 1, 3, 3, "spff"); (0, 2, 0, 3, "sdsf"); (0, 2, 1, 3, "sdpf");
    (0, 2, 2, 3, "sddf"); (0, 2, 3, 0, "sdfs"); (0, 2, 3, 1, "sdfp"); (0, 2, 3, 2, "sdfd");
    (0, 2, 3, 3, "sdff"); (0, 3, 0, 0, "sfss"); (0, 3, 0, 1, "sfsp"); (0, 3, 0, 2, "sfsd");
    (0, 3, 0, 3, "sfsf"); (0, 3, 1, 0, "sfps"); (0, 3, 1, 1, "sfpp"); (0, 3, 1, 2, "sfpd");
    (0, 3, 1, 3, "sfpf"); (0, 3, 2, 0, "sfds"); (0, 3, 2, 1, "sfdp"); (0, 3, 2, 2, "sfdd");
    (0, 3, 2, 3, "sfdf"); (0, 3, 3, 0, "sffs"); (0, 3, 3, 1, "sffp"); (0, 3, 3, 2, "sffd");
    (0, 3, 3, 3, "sfff"); (1, 0, 0, 3, "pssf"); (1, 0, 1, 3, "pspf"); (1, 0, 2, 3, "psdf");
    (1, 0, 3, 0, "psfs"); (1, 0, 3, 1, "psfp"); (1, 0, 3, 2, "psfd"); (1, 0, 3, 3, "psff");
    (1, 1, 0, 3, "ppsf"); (1, 1, 1, 3, "pppf"); (1, 1, 2, 3, "ppdf"); (1, 1, 3, 0, "ppfs");
    (1, 1, 3, 1, "ppfp"); (1, 1, 3, 2, "ppfd"); (1, 1, 3, 3, "ppff"); (1, 2, 0, 3, "pdsf");
    (1, 2, 1, 3, "pdpf"); (1, 2, 2, 3, "pddf"); (1, 2, 3, 0, "pdfs"); (1, 2, 3, 1, "pdfp");
    (1, 2, 3, 2, "pdfd"); (1, 2, 3, 3, "pdff"); (1, 3, 0, 0, "pfss"); (1, 3, 0, 1, "pfsp");
    (1, 3, 0, 2, "pfsd"); (1, 3, 0, 3, "pfsf"); (1, 3, 1, 0, "pfps"); (1, 3, 1, 1, "pfpp");
    (1, 3, 1, 2, "pfpd"); (1, 3, 1, 3, "pfpf"); (1, 3, 2, 0, "pfds"); (1, 3, 2, 1, "pfdp");
    (1, 3, 2, 2, "pfdd"); (1, 3, 2, 3, "pfdf"); (1, 3, 3, 0, "pffs"); (1, 3, 3, 1, "pffp");
    (1, 3, 3, 2, "pffd"); (1, 3, 3, 3, "pfff"); (2, 0, 0, 3, "dssf"); (2, 0, 1, 3, "dspf");
    (2, 0, 2, 3, "dsdf"); (2, 0, 3, 0, "dsfs"); (2, 0, 3, 1, "dsfp"); (2, 0, 3, 2, "dsfd");
    (2, 0, 3, 3, "dsff"); (2, 1, 0, 3, "dpsf"); (2, 1, 1, 3, "dppf"); (2, 1, 2, 3, "dpdf");
    (2, 1, 3, 0, "dpfs"); (2, 1, 3, 1, "dpfp"); (2, 1, 3, 2, "dpfd"); (2, 1, 3, 3, "dpff");
    (2, 2, 0, 3, "ddsf"); (2, 2, 1, 3, "ddpf"); (2, 2, 2, 3, "dddf"); (2, 2, 3, 0, "ddfs");
    (2, 2, 3, 1, "ddfp"); (2, 2, 3, 2, "ddfd"); (2, 2, 3, 3, "ddff"); (2, 3, 0, 0, "dfss");
    (2, 3, 0, 1, "dfsp"); (2, 3, 0, 2, "dfsd"); (2, 3, 0, 3, "dfsf"); (2, 3, 1, 0, "dfps");
    (2, 3, 1, 1, "dfpp"); (2, 3, 1, 2, "dfpd"); (2, 3, 1, 3, "dfpf"); (2, 3, 2, 0, "dfds");
    (2, 3, 2, 1, "dfdp"); (2, 3, 2, 2, "dfdd"); (2, 3, 2, 3, "dfdf"); (2, 3, 3, 0, "dffs");
    (2, 3, 3, 1, "dffp"); (2, 3, 3, 2, "dffd"); (2, 3, 3, 3, "dfff"); (3, 0, 0, 0, "fsss");
    (3, 0, 0, 1, "fssp"); (3, 0, 0, 2, "fssd"); (3, 0, 0, 3, "fssf"); (3, 0, 1, 0, "fsps");
    (3, 0, 1, 1, "fspp"); (3, 0, 1, 2, "fspd"); (3, 0, 1, 3, "fspf"); (3, 0, 2, 0, "fsds");
    (3, 0, 2, 1, "fsdp"); (3, 0, 2, 2, "fsdd"); (3, 0, 2, 3, "fsdf"); (3, 0, 3, 0, "fsfs");
    (3, 0, 3, 1, "fsfp"); (3, 0, 3, 2, "fsfd"); (3, 0, 3, 3, "fsff"); (3, 1, 0, 0, "fpss");
    (3, 1, 0, 1, "fpsp"); (3, 1, 0, 2, "fpsd"); (3, 1, 0, 3, "fpsf"); (3, 1, 1, 0, "fpps");
    (3, 1, 1, 1, "fppp"); (3, 1, 1, 2, "fppd"); (3, 1, 1, 3, "fppf"); (3, 1, 2, 0, "fpds");
    (3, 1, 2, 1, "fpdp"); (3, 1, 2, 2, "fpdd"); (3, 1, 2, 3, "fpdf"); (3, 1, 3, 0, "fpfs");
    (3, 1, 3, 1, "fpfp"); (3, 1, 3, 2, "fpfd"); (3, 1, 3, 3, "fpff"); (3, 2, 0, 0, "fdss");
    (3, 2, 0, 1, "fdsp"); (3, 2, 0, 2, "fdsd"); (3, 2, 0, 3, "fdsf"); (3, 2, 1, 0, "fdps");
    (3, 2, 1, 1, "fdpp"); (3, 2, 1, 2, "fdpd"); (3, 2, 1, 3, "fdpf"); (3, 2, 2, 0, "fdds");
    (3, 2, 2, 1, "fddp"); (3, 2, 2, 2, "fddd"); (3, 2, 2, 3, "fddf"); (3, 2, 3, 0, "fdfs");
    (3, 2, 3, 1, "fdfp"); (3, 2, 3, 2, "fdfd"); (3, 2, 3, 3, "fdff"); (3, 3, 0, 0, "ffss");
    (3, 3, 0, 1, "ffsp"); (3, 3, 0, 2, "ffsd"); (3, 3, 0, 3, "ffsf"); (3, 3, 1, 0, "ffps");
    (3, 3, 1, 1, "ffpp"); (3, 3, 1, 2, "ffpd"); (3, 3, 1, 3, "ffpf"); (3, 3, 2, 0, "ffds");
    (3, 3, 2, 1, "ffdp"); (3, 3, 2, 2, "ffdd"); (3, 3, 2, 3, "ffdf"); (3, 3, 3, 0, "fffs");
    (3, 3, 3, 1, "fffp"); (3, 3, 3, 2, "fffd"); (3, 3, 3, 3, "ffff")]);
   (4, [(0, 0, 0, 4, "sssg"); (0, 0, 1, 4, "sspg"); (0, 0, 2, 4, "ssdg"); (0, 0, 3, 4, "ssfg");
    (0, 0, 4, 0, "ssgs"); (0, 0, 4, 1, "ssgp"); (0, 0, 4, 2, "ssgd"); (0, 0, 4, 3, "ssgf");
    (0, 0, 4, 4, "ssgg"); (0, 1, 0, 4, "spsg"); (0, 1, 1, 4, "sppg"); (0, 1, 2, 4, "spdg");
    (0, 1, 3, 4, "spfg"); (0, 1, 4, 0, "spgs"); (0, 1, 4, 1, "spgp"); (0, 1, 4, 2, "spgd");
    (0, 1, 4, 3, "spgf"); (0, 1, 4, 4, "spgg"); (0, 2, 0, 4, "sdsg"); (0, 2, 1, 4, "sdpg");
    (0, 2, 2, 4, "sddg"); (0, 2, 3, 4, "sdfg"); (0, 2, 4, 0, "sdgs"); (0, 2, 4, 1, "sdgp");
    (0, 2, 4, 2, "sdgd"); (0, 2, 4, 3, "sdgf"); (0, 2, 4, 4, "sdgg"); (0, 3, 0, 4, "sfsg");
    (0, 3, 1, 4, "sfpg"); (0, 3, 2, 4, "sfdg"); (0, 3, 3, 4, "sffg"); (0, 3, 4, 0, "sfgs");
    (0, 3, 4, 1, "sfgp"); (0, 3, 4, 2, "sfgd"); (0, 3, 4, 3, "sfgf"); (0, 3, 4, 4, "sfgg");
    (0, 4, 0, 0, "sgss"); (0, 4, 0, 1, "sgsp"); (0, 4, 0, 2, "sgsd"); (0, 4, 0, 3, "sgsf");
    (0, 4, 0, 4, "sgsg"); (0, 4, 1, 0, "sgps"); (0, 4, 1, 1, "sgpp"); (0, 4, 1, 2, "sgpd");
    (0, 4, 1, 3, "sgpf"); (0, 4, 1, 4, "sgpg"); (0, 4, 2, 0, "sgds"); (0, 4, 2, 1, "sgdp");
    (0, 4, 2, 2, "sgdd"); (0, 4, 2, 3, "sgdf"); (0, 4, 2, 4, "sgdg"); (0, 4, 3, 0, "sgfs");
    (0, 4, 3, 1, "sgfp"); (0, 4, 3, 2, "sgfd"); (0, 4, 3, 3, "sgff"); (0, 4, 3, 4, "sgfg");
    (0, 4, 4, 0, "sggs"); (0, 4, 4, 1, "sggp"); (0, 4, 4, 2, "sggd"); (0, 4, 4, 3, "sggf");
    (0, 4, 4, 4, "sggg"); (1, 0, 0, 4, "pssg"); (1, 0, 1, 4, "pspg"); (1, 0, 2, 4, "psdg");
    (1, 0, 3, 4, "psfg"); (1, 0, 4, 0, "psgs"); (1, 0, 4, 1, "psgp"); (1, 0, 4, 2, "psgd");
    (1, 0, 4, 3, "psgf"); (1, 0, 4, 4, "psgg"); (1, 1, 0, 4, "ppsg"); (1, 1, 1, 4, "pppg");
    (1, 1, 2, 4, "ppdg"); (1, 1, 3, 4, "ppfg"); (1, 1, 4, 0, "ppgs"); (1, 1, 4, 1, "ppgp");
    (1, 1, 4, 2, "ppgd"); (1, 1, 4, 3, "ppgf"); (1, 1, 4, 4, "ppgg"); (1, 2, 0, 4, "pdsg");
    (1, 2, 1, 4, "pdpg"); (1, 2, 2, 4, "pddg"); (1, 2, 3, 4, "pdfg"); (1, 2, 4, 0, "pdgs");
    (1, 2, 4, 1, "pdgp"); (1, 2, 4, 2, "pdgd"); (1, 2, 4, 3, "pdgf"); (1, 2, 4, 4, "pdgg");
    (1, 3, 0, 4, "pfsg"); (1, 3, 1, 4, "pfpg"); (1, 3, 2, 4, "pfdg"); (1, 3, 3, 4, "pffg");
    (1, 3, 4, 0, "pfgs"); (1, 3, 4, 1, "pfgp"); (1, 3, 4, 2, "pfgd"); (1, 3, 4, 3, "pfgf");
    (1, 3, 4, 4, "pfgg"); (1, 4, 0, 0, "pgss"); (1, 4, 0, 1, "pgsp"); (1, 4, 0, 2, "pgsd");
    (1, 4, 0, 3, "pgsf"); (1, 4, 0, 4, "pgsg"); (1, 4, 1, 0, "pgps"); (1, 4, 1, 1, "pgpp");
    (1, 4, 1, 2, "pgpd"); (1, 4, 1, 3, "pgpf"); (1, 4, 1, 4, "pgpg"); (1, 4, 2, 0, "pgds");
    (1, 4, 2, 1, "pgdp"); (1, 4, 2, 2, "pgdd"); (1, 4, 2, 3, "pgdf"); (1, 4, 2, 4, "pgdg");
    (1, 4, 3, 0, "pgfs"); (1, 4, 3, 1, "pgfp"); (1, 4, 3, 2, "pgfd"); (1, 4, 3, 3, "pgff");
    (1, 4, 3, 4, "pgfg"); (1, 4, 4, 0, "pggs"); (1, 4, 4, 1, "pggp"); (1, 4, 4, 2, "pggd");
    (1, 4, 4, 3, "pggf"); (1, 4, 4, 4, "pggg"); (2, 0, 0, 4, "dssg"); (2, 0, 1, 4, "dspg");
    (2, 0, 2, 4, "dsdg"); (2, 0, 3, 4, "dsfg"); (2, 0, 4, 0, "dsgs"); (2, 0, 4, 1, "dsgp");
    (2, 0, 4, 2, "dsgd"); (2, 0, 4, 3, "dsgf"); (2, 0, 4, 4, "dsgg"); (2, 1, 0, 4, "dpsg");
    (2, 1, 1, 4, "dppg"); (2, 1, 2, 4, "dpdg"); (2, 1, 3, 4, "dpfg"); (2, 1, 4, 0, "dpgs");
    (2, 1, 4, 1, "dpgp"); (2, 1, 4, 2, "dpgd"); (2, 1, 4, 3, "dpgf"); (2, 1, 4, 4, "dpgg");
    (2, 2, 0, 4, "ddsg"); (2, 2, 1, 4, "ddpg"); (2, 2, 2, 4, "dddg"); (2, 2, 3, 4, "ddfg");
    (2, 2, 4, 0, "ddgs"); (2, 2, 4, 1, "ddgp"); (2, 2, 4, 2, "ddgd"); (2, 2, 4, 3, "ddgf");
    (2, 2, 4, 4, "ddgg"); (2, 3, 0, 4, "dfsg"); (2, 3, 1, 4, "dfpg"); (2, 3, 2, 4, "dfdg");
    (2, 3, 3, 4, "dffg"); (2, 3, 4, 0, "dfgs"); (2, 3, 4, 1, "dfgp"); (2, 3, 4, 2, "dfgd");
    (2, 3, 4, 3, "dfgf"); (2, 3, 4, 4, "dfgg"); (2, 4, 0, 0, "dgss"); (2, 4, 0, 1, "dgsp");
    (2, 4, 0, 2, "dgsd"); (2, 4, 0, 3, "dgsf"); (2, 4, 0, 4, "dgsg"); (2, 4, 1, 0, "dgps");
    (2, 4, 1, 1, "dgpp"); (2, 4, 1, 2, "dgpd"); (2, 4, 1, 3, "dgpf"); (2, 4, 1, 4, "dgpg");
    (2, 4, 2, 0, "dgds"); (2, 4, 2, 1, "dgdp"); (2, 4, 2, 2, "dgdd"); (2, 4, 2, 3, "dgdf");
    (2, 4, 2, 4, "dgdg"); (2, 4, 3, 0, "dgfs"); (2, 4, 3, 1, "dgfp"); (2, 4, 3, 2, "dgfd");
    (2, 4, 3, 3, "dgff"); (2, 4, 3, 4, "dgfg"); (2, 4, 4, 0, "dggs"); (2, 4, 4, 1, "dggp");
    (2, 4, 4, 2, "dggd"); (2, 4, 4, 3, "dggf"); (2, 4, 4, 4, "dggg"); (3, 0, 0, 4, "fssg");
    (3, 0, 1, 4, "fspg"); (3, 0, 2, 4, "fsdg"); (3, 0, 3, 4, "fsfg"); (3, 0, 4, 0, "fsgs");
    (3, 0, 4, 1, "fsgp"); (3, 0, 4, 2, "fsgd"); (3, 0, 4, 3, "fsgf"); (3, 0, 4, 4, "fsgg");
    (3, 1, 0, 4, "fpsg"); (3, 1, 1, 4, "fppg"); (3, 1, 2, 4, "fpdg"); (3, 1, 3, 4, "fpfg");
    (3, 1, 4, 0, "fpgs"); (3, 1, 4, 1, "fpgp"); (3, 1, 4, 2, "fpgd"); (3, 1, 4, 3, "fpgf");
    (3, 1, 4, 4, "fpgg"); (3, 2, 0, 4, "fdsg"); (3, 2, 1, 4, "fdpg"); (3, 2, 2, 4, "fddg");
    (3, 2, 3, 4, "fdfg"); (3, 2, 4, 0, "fdgs"); (3, 2, 4, 1, "fdgp"); (3, 2, 4, 2, "fdgd");
    (3, 2, 4, 3, "fdgf"); (3, 2, 4, 4, "fdgg"); (3, 3, 0, 4, "ffsg"); (3, 3, 1, 4, "ffpg");
    (3, 3, 2, 4, "ffdg"); (3, 3, 3, 4, "fffg"); (3, 3, 4, 0, "ffgs"); (3, 3, 4, 1, "ffgp");
    (3, 3, 4, 2, "ffgd"); (3, 3, 4, 3, "ffgf"); (3, 3, 4, 4, "ffgg"); (3, 4, 0, 0, "fgss");
    (3, 4, 0, 1, "fgsp"); (3, 4, 0, 2, "fgsd"); (3, 4, 0, 3, "fgsf"); (3, 4, 0, 4, "fgsg");
    (3, 4, 1, 0, "fgps"); (3, 4, 1, 1, "fgpp"); (3, 4, 1, 2, "fgpd"); (3, 4, 1, 3, "fgpf");
    (3, 4, 1, 4, "fgpg"); (3, 4, 2, 0, "fgds"); (3, 4, 2, 1, "fgdp"); (3, 4, 2, 2, "fgdd");
    (3, 4, 2, 3, "fgdf"); (3, 4, 2, 4, "fgdg"); (3, 4, 3, 0, "fgfs"); (3, 4, 3, 1, "fgfp");
    (3, 4, 3, 2, "fgfd"); (3, 4, 3, 3, "fgff"); (3, 4, 3, 4, "fgfg"); (3, 4, 4, 0, "fggs");
    (3, 4, 4, 1, "fggp"); (3, 4, 4, 2, "fggd"); (3, 4, 4, 3, "fggf"); (3, 4, 4, 4, "fggg");
    (4, 0, 0, 0, "gsss"); (4, 0, 0, 1, "gssp"); (4, 0, 0, 2, "gssd"); (4, 0, 0, 3, "gssf");
    (4, 0, 0, 4, "gssg"); (4, 0, 1, 0, "gsps"); (4, 0, 1, 1, "gspp"); (4, 0, 1, 2, "gspd");
    (4, 0, 1, 3, "gspf"); (4, 0, 1, 4, "gspg"); (4, 0, 2, 0, "gsds"); (4, 0, 2, 1, "gsdp");
    (4, 0, 2, 2, "gsdd"); (4, 0, 2, 3, "gsdf"); (4, 0, 2, 4, "gsdg"); (4, 0, 3, 0, "gsfs");
    (4, 0, 3, 1, "gsfp"); (4, 0, 3, 2, "gsfd"); (4, 0, 3, 3, "gsff"); (4, 0, 3, 4, "gsfg");
    (4, 0, 4, 0, "gsgs"); (4, 0, 4, 1, "gsgp"); (4, 0, 4, 2, "gsgd"); (4, 0, 4, 3, "gsgf");
    (4, 0, 4, 4, "gsgg"); (4, 1, 0, 0, "gpss"); (4, 1, 0, 1, "gpsp"); (4, 1, 0, 2, "gpsd");
    (4, 1, 0, 3, "gpsf"); (4, 1, 0, 4, "gpsg"); (4, 1, 1, 0, "gpps"); (4, 1, 1, 1, "gppp");
    (4, 1, 1, 2, "gppd"); (4, 1, 1, 3, "gppf"); (4, 1, 1, 4, "gppg"); (4, 1, 2, 0, "gpds");
    (4, 1, 2, 1, "gpdp"); (4, 1, 2, 2, "gpdd"); (4, 1, 2, 3, "gpdf"); (4, 1, 2, 4, "gpdg");
    (4, 1, 3, 0, "gpfs"); (4, 1, 3, 1, "gpfp"); (4, 1, 3, 2, "gpfd"); (4, 1, 3, 3, "gpff");
    (4, 1, 3, 4, "gpfg"); (4, 1, 4, 0, "gpgs"); (4, 1, 4, 1, "gpgp"); (4, 1, 4, 2, "gpgd");
    (4, 1, 4, 3, "gpgf"); (4, 1, 4, 4, "gpgg"); (4, 2, 0, 0, "gdss"); (4, 2, 0, 1, "gdsp");
    (4, 2, 0, 2, "gdsd"); (4, 2, 0, 3, "gdsf"); (4, 2, 0, 4, "gdsg"); (4, 2, 1, 0, "gdps");
    (4, 2, 1, 1, "gdpp"); (4, 2, 1, 2, "gdpd"); (4, 2, 1, 3, "gdpf"); (4, 2, 1, 4, "gdpg");
    (4, 2, 2, 0, "gdds"); (4, 2, 2, 1, "gddp"); (4, 2, 2, 2, "gddd"); (4, 2, 2, 3, "gddf");
    (4, 2, 2, 4, "gddg"); (4, 2, 3, 0, "gdfs"); (4, 2, 3, 1, "gdfp"); (4, 2, 3, 2, "gdfd");
    (4, 2, 3, 3, "gdff"); (4, 2, 3, 4, "gdfg"); (4, 2, 4, 0, "gdgs"); (4, 2, 4, 1, "gdgp");
    (4, 2, 4, 2, "gdgd"); (4, 2, 4, 3, "gdgf"); (4, 2, 4, 4, "gdgg"); (4, 3, 0, 0, "gfss");
    (4, 3, 0, 1, "gfsp"); (4, 3, 0, 2, "gfsd"); (4, 3, 0, 3, "gfsf"); (4, 3, 0, 4, "gfsg");
    (4, 3, 1, 0, "gfps"); (4, 3, 1, 1, "gfpp"); (4, 3, 1, 2, "gfpd"); (4, 3, 1, 3, "gfpf");
    (4, 3, 1, 4, "gfpg"); (4, 3, 2, 0, "gfds"); (4, 3, 2, 1, "gfdp"); (4, 3, 2, 2, "gfdd");
    (4, 3, 2, 3, "gfdf"); (4, 3, 2, 4, "gfdg"); (4, 3, 3, 0, "gffs"); (4, 3, 3, 1, "gffp");
    (4, 3, 3, 2, "gffd"); (4, 3, 3, 3, "gfff"); (4, 3, 3, 4, "gffg"); (4, 3, 4, 0, "gfgs");
    (4, 3, 4, 1, "gfgp"); (4, 3, 4, 2, "gfgd"); (4, 3, 4, 3, "gfgf"); (4, 3, 4, 4, "gfgg");
    (4, 4, 0, 0, "ggss"); (4, 4, 0, 1, "ggsp"); (4, 4, 0, 2, "ggsd"); (4, 4, 0, 3, "ggsf");
    (4, 4, 0, 4, "ggsg"); (4, 4, 1, 0, "ggps"); (4, 4, 1, 1, "ggpp"); (4, 4, 1, 2, "ggpd");
    (4, 4, 1, 3, "ggpf"); (4, 4, 1, 4, "ggpg"); (4, 4, 2, 0, "ggds"); (4, 4, 2, 1, "ggdp");
    (4, 4, 2, 2, "ggdd"); (4, 4, 2, 3, "ggdf"); (4, 4, 2, 4, "ggdg"); (4, 4, 3, 0, "ggfs");
    (4, 4, 3, 1, "ggfp"); (4, 4, 3, 2, "ggfd"); (4, 4, 3, 3, "ggff"); (4, 4, 3, 4, "ggfg");
    (4, 4, 4, 0, "gggs"); (4, 4, 4, 1, "gggp"); (4, 4, 4, 2, "gggd"); (4, 4, 4, 3, "gggf");
    (4, 4, 4, 4, "gggg")]);
   (5, [(0, 0, 0, 5, "sssh"); (0, 0, 1, 5, "ssph"); (0, 0, 2, 5, "ssdh"); (0, 0, 3, 5, "ssfh");
    (0, 0, 4, 5, "ssgh"); (0, 0, 5, 0, "sshs"); (0, 0, 5, 1, "sshp"); (0, 0, 5, 2, "sshd");
    (0, 0, 5, 3, "sshf"); (0, 0, 5, 4, "sshg"); (0, 0, 5, 5, "sshh"); (0, 1, 0, 5, "spsh");
    (0, 1, 1, 5, "spph"); (0, 1, 2, 5, "spdh"); (0, 1, 3, 5, "spfh"); (0, 1, 4, 5, "spgh");
    (0, 1, 5, 0, "sphs"); (0, 1, 5, 1, "sphp"); (0, 1, 5, 2, "sphd"); (0, 1, 5, 3, "sphf");
    (0, 1, 5, 4, "sphg"); (0, 1, 5, 5, "sphh"); (0, 2, 0, 5, "sdsh"); (0, 2, 1, 5, "sdph");
    (0, 2, 2, 5, "sddh"); (0, 2, 3, 5, "sdfh"); (0, 2, 4, 5, "sdgh"); (0, 2, 5, 0, "sdhs");
    (0, 2, 5, 1, "sdhp"); (0, 2, 5, 2, "sdhd"); (0, 2, 5, 3, "sdhf"); (0, 2, 5, 4, "sdhg");
    (0, 2, 5, 5, "sdhh"); (0, 3, 0, 5, "sfsh"); (0, 3, 1, 5, "sfph"); (0, 3, 2, 5, "sfdh");
    (0, 3, 3, 5, "sffh"); (0, 3, 4, 5, "sfgh"); (0, 3, 5, 0, "sfhs"); (0, 3, 5, 1, "sfhp");
    (0, 3, 5, 2, "sfhd"); (0, 3, 5, 3, "sfhf"); (0, 3, 5, 4, "sfhg"); (0, 3, 5, 5, "sfhh");
    (0, 4, 0, 5, "sgsh"); (0, 4, 1, 5, "sgph"); (0, 4, 2, 5, "sgdh"); (0, 4, 3, 5, "sgfh");
    (0, 4, 4, 5, "sggh"); (0, 4, 5, 0, "sghs"); (0, 4, 5, 1, "sghp"); (0, 4, 5, 2, "sghd");
    (0, 4, 5, 3, "sghf"); (0, 4, 5, 4, "sghg"); (0, 4, 5, 5, "sghh"); (0, 5, 0, 0, "shss");
    (0, 5, 0, 1, "shsp"); (0, 5, 0, 2, "shsd"); (0, 5, 0, 3, "shsf"); (0, 5, 0, 4, "shsg");
    (0, 5, 0, 5, "shsh"); (0, 5, 1, 0, "shps"); (0, 5, 1, 1, "shpp"); (0, 5, 1, 2, "shpd");
    (0, 5, 1, 3, "shpf"); (0, 5, 1, 4, "shpg"); (0, 5, 1, 5, "shph"); (0, 5, 2, 0, "shds");
    (0, 5, 2, 1, "shdp"); (0, 5, 2, 2, "shdd"); (0, 5, 2, 3, "shdf"); (0, 5, 2, 4, "shdg");
    (0, 5, 2, 5, "shdh"); (0, 5, 3, 0, "shfs"); (0, 5, 3, 1, "shfp"); (0, 5, 3, 2, "shfd");
    (0, 5, 3, 3, "shff"); (0, 5, 3, 4, "shfg"); (0, 5, 3, 5, "shfh"); (0, 5, 4, 0, "shgs");
    (0, 5, 4, 1, "shgp"); (0, 5, 4, 2, "shgd"); (0, 5, 4, 3, "shgf"); (0, 5, 4, 4, "shgg");
    (0, 5, 4, 5, "shgh"); (0, 5, 5, 0, "shhs"); (0, 5, 5, 1, "shhp"); (0, 5, 5, 2, "shhd");
    (0, 5, 5, 3, "shhf"); (0, 5, 5, 4, "shhg"); (0, 5, 5, 5, "shhh"); (1, 0, 0, 5, "pssh");
    (1, 0, 1, 5, "psph"); (1, 0, 2, 5, "psdh"); (1, 0, 3, 5, "psfh"); (1, 0, 4, 5, "psgh");
    (1, 0, 5, 0, "pshs"); (1, 0, 5, 1, "pshp"); (1, 0, 5, 2, "pshd"); (1, 0, 5, 3, "pshf");
    (1, 0, 5, 4, "pshg"); (1, 0, 5, 5, "pshh"); (1, 1, 0, 5, "ppsh"); (1, 1, 1, 5, "ppph");
    (1, 1, 2, 5, "ppdh"); (1, 1, 3, 5, "ppfh"); (1, 1, 4, 5, "ppgh"); (1, 1, 5, 0, "pphs");
    (1, 1, 5, 1, "pphp"); (1, 1, 5, 2, "pphd"); (1, 1, 5, 3, "pphf"); (1, 1, 5, 4, "pphg");
    (1, 1, 5, 5, "pphh"); (1, 2, 0, 5, "pdsh"); (1, 2, 1, 5, "pdph"); (1, 2, 2, 5, "pddh");
    (1, 2, 3, 5, "pdfh"); (1, 2, 4, 5, "pdgh"); (1, 2, 5, 0, "pdhs"); (1, 2, 5, 1, "pdhp");
    (1, 2, 5, 2, "pdhd"); (1, 2, 5, 3, "pdhf"); (1, 2, 5, 4, "pdhg"); (1, 2, 5, 5, "pdhh");
    (1, 3, 0, 5, "pfsh"); (1, 3, 1, 5, "pfph"); (1, 3, 2, 5, "pfdh"); (1, 3, 3, 5, "pffh");
    (1, 3, 4, 5, "pfgh"); (1, 3, 5, 0, "pfhs"); (1, 3, 5, 1, "pfhp"); (1, 3, 5, 2, "pfhd");
    (1, 3, 5, 3, "pfhf"); (1, 3, 5, 4, "pfhg"); (1, 3, 5, 5, "pfhh"); (1, 4, 0, 5, "pgsh");
    (1, 4, 1, 5, "pgph"); (1, 4, 2, 5, "pgdh"); (1, 4, 3, 5, "pgfh"); (1, 4, 4, 5, "pggh");
    (1, 4, 5, 0, "pghs"); (1, 4, 5, 1, "pghp"); (1, 4, 5, 2, "pghd"); (1, 4, 5, 3, "pghf");
    (1, 4, 5, 4, "pghg"); (1, 4, 5, 5, "pghh"); (1, 5, 0, 0, "phss"); (1, 5, 0, 1, "phsp");
    (1, 5, 0, 2, "phsd"); (1, 5, 0, 3, "phsf"); (1, 5, 0, 4, "phsg"); (1, 5, 0, 5, "phsh");
    (1, 5, 1, 0, "phps"); (1, 5, 1, 1, "phpp"); (1, 5, 1, 2, "phpd"); (1, 5, 1, 3, "phpf");
    (1, 5, 1, 4, "phpg"); (1, 5, 1, 5, "phph"); (1, 5, 2, 0, "phds"); (1, 5, 2, 1, "phdp");
    (1, 5, 2, 2, "phdd"); (1, 5, 2, 3, "phdf"); (1, 5, 2, 4, "phdg"); (1, 5, 2, 5, "phdh");
    (1, 5, 3, 0, "phfs"); (1, 5, 3, 1, "phfp"); (1, 5, 3, 2, "phfd"); (1, 5, 3, 3, "phff");
    (1, 5, 3, 4, "phfg"); (1, 5, 3, 5, "phfh"); (1, 5, 4, 0, "phgs"); (1, 5, 4, 1, "phgp");
    (1, 5, 4, 2, "phgd"); (1, 5, 4, 3, "phgf"); (1, 5, 4, 4, "phgg"); (1, 5, 4, 5, "phgh");
    (1, 5, 5, 0, "phhs"); (1, 5, 5, 1, "phhp"); (1, 5, 5, 2, "phhd"); (1, 5, 5, 3, "phhf");
    (1, 5, 5, 4, "phhg"); (1, 5, 5, 5, "phhh"); (2, 0, 0, 5, "dssh"); (2, 0, 1, 5, "dsph");
    (2, 0, 2, 5, "dsdh"); (2, 0, 3, 5, "dsfh"); (2, 0, 4, 5, "dsgh"); (2, 0, 5, 0, "dshs");
    (2, 0, 5, 1, "dshp"); (2, 0, 5, 2, "dshd"); (2, 0, 5, 3, "dshf"); (2, 0, 5, 4, "dshg");
    (2, 0, 5, 5, "dshh"); (2, 1, 0, 5, "dpsh"); (2, 1, 1, 5, "dpph"); (2, 1, 2, 5, "dpdh");
    (2, 1, 3, 5, "dpfh"); (2, 1, 4, 5, "dpgh"); (2, 1, 5, 0, "dphs"); (2, 1, 5, 1, "dphp");
    (2, 1, 5, 2, "dphd"); (2, 1, 5, 3, "dphf"); (2, 1, 5, 4, "dphg"); (2, 1, 5, 5, "dphh");
    (2, 2, 0, 5, "ddsh"); (2, 2, 1, 5, "ddph"); (2, 2, 2, 5, "dddh"); (2, 2, 3, 5, "ddfh");
    (2, 2, 4, 5, "ddgh"); (2, 2, 5, 0, "ddhs"); (2, 2, 5, 1, "ddhp"); (2, 2, 5, 2, "ddhd");
    (2, 2, 5, 3, "ddhf"); (2, 2, 5, 4, "ddhg"); (2, 2, 5, 5, "ddhh"); (2, 3, 0, 5, "dfsh");
    (2, 3, 1, 5, "dfph"); (2, 3, 2, 5, "dfdh"); (2, 3, 3, 5, "dffh"); (2, 3, 4, 5, "dfgh");
    (2, 3, 5, 0, "dfhs"); (2, 3, 5, 1, "dfhp"); (2, 3, 5, 2, "dfhd"); (2, 3, 5, 3, "dfhf");
    (2, 3, 5, 4, "dfhg"); (2, 3, 5, 5, "dfhh"); (2, 4, 0, 5, "dgsh"); (2, 4, 1, 5, "dgph");
    (2, 4, 2, 5, "dgdh"); (2, 4, 3, 5, "dgfh"); (2, 4, 4, 5, "dggh"); (2, 4, 5, 0, "dghs");
    (2, 4, 5, 1, "dghp"); (2, 4, 5, 2, "dghd"); (2, 4, 5, 3, "dghf"); (2, 4, 5, 4, "dghg");
    (2, 4, 5, 5, "dghh"); (2, 5, 0, 0, "dhss"); (2, 5, 0, 1, "dhsp"); (2, 5, 0, 2, "dhsd");
    (2, 5, 0, 3, "dhsf"); (2, 5, 0, 4, "dhsg"); (2, 5, 0, 5, "dhsh"); (2, 5, 1, 0, "dhps");
    (2, 5, 1, 1, "dhpp"); (2, 5, 1, 2, "dhpd"); (2, 5, 1, 3, "dhpf"); (2, 5, 1, 4, "dhpg");
    (2, 5, 1, 5, "dhph"); (2, 5, 2, 0, "dhds"); (2, 5, 2, 1, "dhdp"); (2, 5, 2, 2, "dhdd");
    (2, 5, 2, 3, "dhdf"); (2, 5, 2, 4, "dhdg"); (2, 5, 2, 5, "dhdh"); (2, 5, 3, 0, "dhfs");
    (2, 5, 3, 1, "dhfp"); (2, 5, 3, 2, "dhfd"); (2, 5, 3, 3, "dhff"); (2, 5, 3, 4, "dhfg");
    (2, 5, 3, 5, "dhfh"); (2, 5, 4, 0, "dhgs"); (2, 5, 4, 1, "dhgp"); (2, 5, 4, 2, "dhgd");
    (2, 5, 4, 3, "dhgf"); (2, 5, 4, 4, "dhgg"); (2, 5, 4, 5, "dhgh"); (2, 5, 5, 0, "dhhs");
    (2, 5, 5, 1, "dhhp"); (2, 5, 5, 2, "dhhd"); (2, 5, 5, 3, "dhhf"); (2, 5, 5, 4, "dhhg");
    (2, 5, 5, 5, "dhhh"); (3, 0, 0, 5, "fssh"); (3, 0, 1, 5, "fsph"); (3, 0, 2, 5, "fsdh");
    (3, 0, 3, 5, "fsfh"); (3, 0, 4, 5, "fsgh"); (3, 0, 5, 0, "fshs"); (3, 0, 5, 1, "fshp");
    (3, 0, 5, 2, "fshd"); (3, 0, 5, 3, "fshf"); (3, 0, 5, 4, "fshg"); (3, 0, 5, 5, "fshh");
    (3, 1, 0, 5, "fpsh"); (3, 1, 1, 5, "fpph"); (3, 1, 2, 5, "fpdh"); (3, 1, 3, 5, "fpfh");
    (3, 1, 4, 5, "fpgh"); (3, 1, 5, 0, "fphs"); (3, 1, 5, 1, "fphp"); (3, 1, 5, 2, "fphd");
    (3, 1, 5, 3, "fphf"); (3, 1, 5, 4, "fphg"); (3, 1, 5, 5, "fphh"); (3, 2, 0, 5, "fdsh");
    (3, 2, 1, 5, "fdph"); (3, 2, 2, 5, "fddh"); (3, 2, 3, 5, "fdfh"); (3, 2, 4, 5, "fdgh");
    (3, 2, 5, 0, "fdhs"); (3, 2, 5, 1, "fdhp"); (3, 2, 5, 2, "fdhd"); (3, 2, 5, 3, "fdhf");
    (3, 2, 5, 4, "fdhg"); (3, 2, 5, 5, "fdhh"); (3, 3, 0, 5, "ffsh"); (3, 3, 1, 5, "ffph");
    (3, 3, 2, 5, "ffdh"); (3, 3, 3, 5, "fffh"); (3, 3, 4, 5, "ffgh"); (3, 3, 5, 0, "ffhs");
    (3, 3, 5, 1, "ffhp"); (3, 3, 5, 2, "ffhd"); (3, 3, 5, 3, "ffhf"); (3, 3, 5, 4, "ffhg");
    (3, 3, 5, 5, "ffhh"); (3, 4, 0, 5, "fgsh"); (3, 4, 1, 5, "fgph"); (3, 4, 2, 5, "fgdh");
    (3, 4, 3, 5, "fgfh"); (3, 4, 4, 5, "fggh"); (3, 4, 5, 0, "fghs"); (3, 4, 5, 1, "fghp");
    (3, 4, 5, 2, "fghd"); (3, 4, 5, 3, "fghf"); (3, 4, 5, 4, "fghg"); (3, 4, 5, 5, "fghh");
    (3, 5, 0, 0, "fhss"); (3, 5, 0, 1, "fhsp"); (3, 5, 0, 2, "fhsd"); (3, 5, 0, 3, "fhsf");
    (3, 5, 0, 4, "fhsg"); (3, 5, 0, 5, "fhsh"); (3, 5, 1, 0, "fhps"); (3, 5, 1, 1, "fhpp");
    (3, 5, 1, 2, "fhpd"); (3, 5, 1, 3, "fhpf"); (3, 5, 1, 4, "fhpg"); (3, 5, 1, 5, "fhph");
    (3, 5, 2, 0, "fhds"); (3, 5, 2, 1, "fhdp"); (3, 5, 2, 2, "fhdd"); (3, 5, 2, 3, "fhdf");
    (3, 5, 2, 4, "fhdg"); (3, 5, 2, 5, "fhdh"); (3, 5, 3, 0, "fhfs"); (3, 5, 3, 1, "fhfp");
    (3, 5, 3, 2, "fhfd"); (3, 5, 3, 3, "fhff"); (3, 5, 3, 4, "fhfg"); (3, 5, 3, 5, "fhfh");
    (3, 5, 4, 0, "fhgs"); (3, 5, 4, 1, "fhgp"); (3, 5, 4, 2, "fhgd"); (3, 5, 4, 3, "fhgf");
    (3, 5, 4, 4, "fhgg"); (3, 5, 4, 5, "fhgh"); (3, 5, 5, 0, "fhhs"); (3, 5, 5, 1, "fhhp");
    (3, 5, 5, 2, "fhhd"); (3, 5, 5, 3, "fhhf"); (3, 5, 5, 4, "fhhg"); (3, 5, 5, 5, "fhhh");
    (4, 0, 0, 5, "gssh"); (4, 0, 1, 5, "gsph"); (4, 0, 2, 5, "gsdh"); (4, 0, 3, 5, "gsfh");
    (4, 0, 4, 5, "gsgh"); (4, 0, 5, 0, "gshs"); (4, 0, 5, 1, "gshp"); (4, 0, 5, 2, "gshd");
    (4, 0, 5, 3, "gshf"); (4, 0, 5, 4, "gshg"); (4, 0, 5, 5, "gshh"); (4, 1, 0, 5, "gpsh");
    (4, 1, 1, 5, "gpph"); (4, 1, 2, 5, "gpdh"); (4, 1, 3, 5, "gpfh"); (4, 1, 4, 5, "gpgh");
    (4, 1, 5, 0, "gphs"); (4, 1, 5, 1, "gphp"); (4, 1, 5, 2, "gphd"); (4, 1, 5, 3, "gphf");
    (4, 1, 5, 4, "gphg"); (4, 1, 5, 5, "gphh"); (4, 2, 0, 5, "gdsh"); (4, 2, 1, 5, "gdph");
    (4, 2, 2, 5, "gddh"); (4, 2, 3, 5, "gdfh"); (4, 2, 4, 5, "gdgh"); (4, 2, 5, 0, "gdhs");
    (4, 2, 5, 1, "gdhp"); (4, 2, 5, 2, "gdhd"); (4, 2, 5, 3, "gdhf"); (4, 2, 5, 4, "gdhg");
    (4, 2, 5, 5, "gdhh"); (4, 3, 0, 5, "gfsh"); (4, 3, 1, 5, "gfph"); (4, 3, 2, 5, "gfdh");
    (4, 3, 3, 5, "gffh"); (4, 3, 4, 5, "gfgh"); (4, 3, 5, 0, "gfhs"); (4, 3, 5, 1, "gfhp");
    (4, 3, 5, 2, "gfhd"); (4, 3, 5, 3, "gfhf"); (4, 3, 5, 4, "gfhg"); (4, 3, 5, 5, "gfhh");
    (4, 4, 0, 5, "ggsh"); (4, 4, 1, 5, "ggph"); (4, 4, 2, 5, "ggdh"); (4, 4, 3, 5, "ggfh");
    (4, 4, 4, 5, "gggh"); (4, 4, 5, 0, "gghs"); (4, 4, 5, 1, "gghp"); (4, 4, 5, 2, "gghd");
    (4, 4, 5, 3, "gghf"); (4, 4, 5, 4, "gghg"); (4, 4, 5, 5, "gghh"); (4, 5, 0, 0, "ghss");
    (4, 5, 0, 1, "ghsp"); (4, 5, 0, 2, "ghsd"); (4, 5, 0, 3, "ghsf"); (4, 5, 0, 4, "ghsg");
    (4, 5, 0, 5, "ghsh"); (4, 5, 1, 0, "ghps"); (4, 5, 1, 1, "ghpp"); (4, 5, 1, 2, "ghpd");
    (4, 5, 1, 3, "ghpf"); (4, 5, 1, 4, "ghpg"); (4, 5, 1, 5, "ghph"); (4, 5, 2, 0, "ghds");
    (4, 5, 2, 1, "ghdp"); (4, 5, 2, 2, "ghdd"); (4, 5, 2, 3, "ghdf"); (4, 5, 2, 4, "ghdg");
    (4, 5, 2, 5, "ghdh"); (4, 5, 3, 0, "ghfs"); (4, 5, 3, 1, "ghfp"); (4, 5, 3, 2, "ghfd");
    (4, 5, 3, 3, "ghff"); (4, 5, 3, 4, "ghfg"); (4, 5, 3, 5, "ghfh"); (4, 5, 4, 0, "ghgs");
    (4, 5, 4, 1, "ghgp"); (4, 5, 4, 2, "ghgd"); (4, 5, 4, 3, "ghgf"); (4, 5, 4, 4, "ghgg");
    (4, 5, 4, 5, "ghgh"); (4, 5, 5, 0, "ghhs"); (4, 5, 5, 1, "ghhp"); (4, 5, 5, 2, "ghhd");
    (4, 5, 5, 3, "ghhf"); (4, 5, 5, 4, "ghhg"); (4, 5, 5, 5, "ghhh"); (5, 0, 0, 0, "hsss");
    (5, 0, 0, 1, "hssp"); (5, 0, 0, 2, "hssd"); (5, 0, 0, 3, "hssf"); (5, 0, 0, 4, "hssg");
    (5, 0, 0, 5, "hssh"); (5, 0, 1, 0, "hsps"); (5, 0, 1, 1, "hspp"); (5, 0, 1, 2, "hspd");
    (5, 0, 1, 3, "hspf"); (5, 0, 1, 4, "hspg"); (5, 0, 1, 5, "hsph"); (5, 0, 2, 0, "hsds");
    (5, 0, 2, 1, "hsdp"); (5, 0, 2, 2, "hsdd"); (5, 0, 2, 3, "hsdf"); (5, 0, 2, 4, "hsdg");
    (5, 0, 2, 5, "hsdh"); (5, 0, 3, 0, "hsfs"); (5, 0, 3, 1, "hsfp"); (5, 0, 3, 2, "hsfd");
    (5, 0, 3, 3, "hsff"); (5, 0, 3, 4, "hsfg"); (5, 0, 3, 5, "hsfh"); (5, 0, 4, 0, "hsgs");
    (5, 0, 4, 1, "hsgp"); (5, 0, 4, 2, "hsgd"); (5, 0, 4, 3, "hsgf"); (5, 0, 4, 4, "hsgg");
    (5, 0, 4, 5, "hsgh"); (5, 0, 5, 0, "hshs"); (5, 0, 5, 1, "hshp"); (5, 0, 5, 2, "hshd");
    (5, 0, 5, 3, "hshf"); (5, 0, 5, 4, "hshg"); (5, 0, 5, 5, "hshh"); (5, 1, 0, 0, "hpss");
    (5, 1, 0, 1, "hpsp"); (5, 1, 0, 2, "hpsd"); (5, 1, 0, 3, "hpsf"); (5, 1, 0, 4, "hpsg");
    (5, 1, 0, 5, "hpsh"); (5, 1, 1, 0, "hpps"); (5, 1, 1, 1, "hppp"); (5, 1, 1, 2, "hppd");
    (5, 1, 1, 3, "hppf"); (5, 1, 1, 4, "hppg"); (5, 1, 1, 5, "hpph"); (5, 1, 2, 0, "hpds");
    (5, 1, 2, 1, "hpdp"); (5, 1, 2, 2, "hpdd"); (5, 1, 2, 3, "hpdf"); (5, 1, 2, 4, "hpdg");
    (5, 1, 2, 5, "hpdh"); (5, 1, 3, 0, "hpfs"); (5, 1, 3, 1, "hpfp"); (5, 1, 3, 2, "hpfd");
    (5, 1, 3, 3, "hpff"); (5, 1, 3, 4, "hpfg"); (5, 1, 3, 5, "hpfh"); (5, 1, 4, 0, "hpgs");
    (5, 1, 4, 1, "hpgp"); (5, 1, 4, 2, "hpgd"); (5, 1, 4, 3, "hpgf"); (5, 1, 4, 4, "hpgg");
    (5, 1, 4, 5, "hpgh"); (5, 1, 5, 0, "hphs"); (5, 1, 5, 1, "hphp"); (5, 1, 5, 2, "hphd");
    (5, 1, 5, 3, "hphf"); (5, 1, 5, 4, "hphg"); (5, 1, 5, 5, "hphh"); (5, 2, 0, 0, "hdss");
    (5, 2, 0, 1, "hdsp"); (5, 2, 0, 2, "hdsd"); (5, 2, 0, 3, "hdsf"); (5, 2, 0, 4, "hdsg");
    (5, 2, 0, 5, "hdsh"); (5, 2, 1, 0, "hdps"); (5, 2, 1, 1, "hdpp"); (5, 2, 1, 2, "hdpd");
    (5, 2, 1, 3, "hdpf"); (5, 2, 1, 4, "hdpg"); (5, 2, 1, 5, "hdph"); (5, 2, 2, 0, "hdds");
    (5, 2, 2, 1, "hddp"); (5, 2, 2, 2, "hddd"); (5, 2, 2, 3, "hddf"); (5, 2, 2, 4, "hddg");
    (5, 2, 2, 5, "hddh"); (5, 2, 3, 0, "hdfs"); (5, 2, 3, 1, "hdfp"); (5, 2, 3, 2, "hdfd");
    (5, 2, 3, 3, "hdff"); (5, 2, 3, 4, "hdfg"); (5, 2, 3, 5, "hdfh"); (5, 2, 4, 0, "hdgs");
    (5, 2, 4, 1, "hdgp"); (5, 2, 4, 2, "hdgd"); (5, 2, 4, 3, "hdgf"); (5, 2, 4, 4, "hdgg");
    (5, 2, 4, 5, "hdgh"); (5, 2, 5, 0, "hdhs"); (5, 2, 5, 1, "hdhp"); (5, 2, 5, 2, "hdhd");
    (5, 2, 5, 3, "hdhf"); (5, 2, 5, 4, "hdhg"); (5, 2, 5, 5, "hdhh"); (5, 3, 0, 0, "hfss");
    (5, 3, 0, 1, "hfsp"); (5, 3, 0, 2, "hfsd"); (5, 3, 0, 3, "hfsf"); (5, 3, 0, 4, "hfsg");
    (5, 3, 0, 5, "hfsh"); (5, 3, 1, 0, "hfps"); (5, 3, 1, 1, "hfpp"); (5, 3, 1, 2, "hfpd");
    (5, 3, 1, 3, "hfpf"); (5, 3, 1, 4, "hfpg"); (5, 3, 1, 5, "hfph"); (5, 3, 2, 0, "hfds");
    (5, 3, 2, 1, "hfdp"); (5, 3, 2, 2, "hfdd"); (5, 3, 2, 3, "hfdf"); (5, 3, 2, 4, "hfdg");
    (5, 3, 2, 5, "hfdh"); (5, 3, 3, 0, "hffs"); (5, 3, 3, 1, "hffp"); (5, 3, 3, 2, "hffd");
    (5, 3, 3, 3, "hfff"); (5, 3, 3, 4, "hffg"); (5, 3, 3, 5, "hffh"); (5, 3, 4, 0, "hfgs");
    (5, 3, 4, 1, "hfgp"); (5, 3, 4, 2, "hfgd"); (5, 3, 4, 3, "hfgf"); (5, 3, 4, 4, "hfgg");
    (5, 3, 4, 5, "hfgh"); (5, 3, 5, 0, "hfhs"); (5, 3, 5, 1, "hfhp"); (5, 3, 5, 2, "hfhd");
    (5, 3, 5, 3, "hfhf"); (5, 3, 5, 4, "hfhg"); (5, 3, 5, 5, "hfhh"); (5, 4, 0, 0, "hgss");
    (5, 4, 0, 1, "hgsp"); (5, 4, 0, 2, "hgsd"); (5, 4, 0, 3, "hgsf"); (5, 4, 0, 4, "hgsg");
    (5, 4, 0, 5, "hgsh"); (5, 4, 1, 0, "hgps"); (5, 4, 1, 1, "hgpp"); (5, 4, 1, 2, "hgpd");
    (5, 4, 1, 3, "hgpf"); (5, 4, 1, 4, "hgpg"); (5, 4, 1, 5, "hgph"); (5, 4, 2, 0, "hgds");
    (5, 4, 2, 1, "hgdp"); (5, 4, 2, 2, "hgdd"); (5, 4, 2, 3, "hgdf"); (5, 4, 2, 4, "hgdg");
    (5, 4, 2, 5, "hgdh"); (5, 4, 3, 0, "hgfs"); (5, 4, 3, 1, "hgfp"); (5, 4, 3, 2, "hgfd");
    (5, 4, 3, 3, "hgff"); (5, 4, 3, 4, "hgfg"); (5, 4, 3, 5, "hgfh"); (5, 4, 4, 0, "hggs");
    (5, 4, 4, 1, "hggp"); (5, 4, 4, 2, "hggd"); (5, 4, 4, 3, "hggf"); (5, 4, 4, 4, "hggg");
    (5, 4, 4, 5, "hggh"); (5, 4, 5, 0, "hghs"); (5, 4, 5, 1, "hghp"); (5, 4, 5, 2, "hghd");
    (5, 4, 5, 3, "hghf"); (5, 4, 5, 4, "hghg"); (5, 4, 5, 5, "hghh"); (5, 5, 0, 0, "hhss");
    (5, 5, 0, 1, "hhsp"); (5, 5, 0, 2, "hhsd"); (5, 5, 0, 3, "hhsf"); (5, 5, 0, 4, "hhsg");
    (5, 5, 0, 5, "hhsh"); (5, 5, 1, 0, "hhps"); (5, 5, 1, 1, "hhpp"); (5, 5, 1, 2, "hhpd");
    (5, 5, 1, 3, "hhpf"); (5, 5, 1, 4, "hhpg"); (5, 5, 1, 5, "hhph"); (5, 5, 2, 0, "hhds");
    (5, 5, 2, 1, "hhdp"); (5, 5, 2, 2, "hhdd"); (5, 5, 2, 3, "hhdf"); (5, 5, 2, 4, "hhdg");
    (5, 5, 2, 5, "hhdh"); (5, 5, 3, 0, "hhfs"); (5, 5, 3, 1, "hhfp"); (5, 5, 3, 2, "hhfd");
    (5, 5, 3, 3, "hhff"); (5, 5, 3, 4, "hhfg"); (5, 5, 3, 5, "hhfh"); (5, 5, 4, 0, "hhgs");
    (5, 5, 4, 1, "hhgp"); (5, 5, 4, 2, "hhgd"); (5, 5, 4, 3, "hhgf"); (5, 5, 4, 4, "hhgg");
    (5, 5, 4, 5, "hhgh"); (5, 5, 5, 0, "hhhs"); (5, 5, 5, 1, "hhhp"); (5, 5, 5, 2, "hhhd");
    (5, 5, 5, 3, "hhhf"); (5, 5, 5, 4, "hhhg"); (5, 5, 5, 5, "hhhh")]);
   (6, [(0, 0, 0, 6, "sssi"); (0, 0, 1, 6, "sspi"); (0, 0, 2, 6, "ssdi"); (0, 0, 3, 6, "ssfi");
    (0, 0, 4, 6, "ssgi"); (0, 0, 5, 6, "sshi"); (0, 0, 6, 0, "ssis"); (0, 0, 6, 1, "ssip");
    (0, 0, 6, 2, "ssid"); (0, 0, 6, 3, "ssif"); (0, 0, 6, 4, "ssig"); (0, 0, 6, 5, "ssih");
    (0, 0, 6, 6, "ssii"); (0, 1, 0, 6, "spsi"); (0, 1, 1, 6, "sppi"); (0, 1, 2, 6, "spdi");
    (0, 1, 3, 6, "spfi"); (0, 1, 4, 6, "spgi"); (0, 1, 5, 6, "sphi"); (0, 1, 6, 0, "spis");
    (0, 1, 6, 1, "spip"); (0, 1, 6, 2, "spid"); (0, 1, 6, 3, "spif"); (0, 1, 6, 4, "spig");
    (0, 1, 6, 5, "spih"); (0, 1, 6, 6, "spii"); (0, 2, 0, 6, "sdsi"); (0, 2, 1, 6, "sdpi");
    (0, 2, 2, 6, "sddi"); (0, 2, 3, 6, "sdfi"); (0, 2, 4, 6, "sdgi"); (0, 2, 5, 6, "sdhi");
    (0, 2, 6, 0, "sdis"); (0, 2, 6, 1, "sdip"); (0, 2, 6, 2, "sdid"); (0, 2, 6, 3, "sdif");
    (0, 2, 6, 4, "sdig"); (0, 2, 6, 5, "sdih"); (0, 2, 6, 6, "sdii"); (0, 3, 0, 6, "sfsi");
    (0, 3, 1, 6, "sfpi"); (0, 3, 2, 6, "sfdi"); (0, 3, 3, 6, "sffi"); (0, 3, 4, 6, "sfgi");
    (0, 3, 5, 6, "sfhi"); (0, 3, 6, 0, "sfis"); (0, 3, 6, 1, "sfip"); (0, 3, 6, 2, "sfid");
    (0, 3, 6, 3, "sfif"); (0, 3, 6, 4, "sfig"); (0, 3, 6, 5, "sfih"); (0, 3, 6, 6, "sfii");
    (0, 4, 0, 6, "sgsi"); (0, 4, 1, 6, "sgpi"); (0, 4, 2, 6, "sgdi"); (0, 4, 3, 6, "sgfi");
    (0, 4, 4, 6, "sggi"); (0, 4, 5, 6, "sghi"); (0, 4, 6, 0, "sgis"); (0, 4, 6, 1, "sgip");
    (0, 4, 6, 2, "sgid"); (0, 4, 6, 3, "sgif"); (0, 4, 6, 4, "sgig"); (0, 4, 6, 5, "sgih");
    (0, 4, 6, 6, "sgii"); (0, 5, 0, 6, "shsi"); (0, 5, 1, 6, "shpi"); (0, 5, 2, 6, "shdi");
    (0, 5, 3, 6, "shfi"); (0, 5, 4, 6, "shgi"); (0, 5, 5, 6, "shhi"); (0, 5, 6, 0, "shis");
    (0, 5, 6, 1, "ship"); (0, 5, 6, 2, "shid"); (0, 5, 6, 3, "shif"); (0, 5, 6, 4, "shig");
    (0, 5, 6, 5, "shih"); (0, 5, 6, 6, "shii"); (0, 6, 0, 0, "siss"); (0, 6, 0, 1, "sisp");
    (0, 6, 0, 2, "sisd"); (0, 6, 0, 3, "sisf"); (0, 6, 0, 4, "sisg"); (0, 6, 0, 5, "sish");
    (0, 6, 0, 6, "sisi"); (0, 6, 1, 0, "sips"); (0, 6, 1, 1, "sipp"); (0, 6, 1, 2, "sipd");
    (0, 6, 1, 3, "sipf"); (0, 6, 1, 4, "sipg"); (0, 6, 1, 5, "siph"); (0, 6, 1, 6, "sipi");
    (0, 6, 2, 0, "sids"); (0, 6, 2, 1, "sidp"); (0, 6, 2, 2, "sidd"); (0, 6, 2, 3, "sidf");
    (0, 6, 2, 4, "sidg"); (0, 6, 2, 5, "sidh"); (0, 6, 2, 6, "sidi"); (0, 6, 3, 0, "sifs");
    (0, 6, 3, 1, "sifp"); (0, 6, 3, 2, "sifd"); (0, 6, 3, 3, "siff"); (0, 6, 3, 4, "sifg");
    (0, 6, 3, 5, "sifh"); (0, 6, 3, 6, "sifi"); (0, 6, 4, 0, "sigs"); (0, 6, 4, 1, "sigp");
    (0, 6, 4, 2, "sigd"); (0, 6, 4, 3, "sigf"); (0, 6, 4, 4, "sigg"); (0, 6, 4, 5, "sigh");
    (0, 6, 4, 6, "sigi"); (0, 6, 5, 0, "sihs"); (0, 6, 5, 1, "sihp"); (0, 6, 5, 2, "sihd");
    (0, 6, 5, 3, "sihf"); (0, 6, 5, 4, "sihg"); (0, 6, 5, 5, "sihh"); (0, 6, 5, 6, "sihi");
    (0, 6, 6, 0, "siis"); (0, 6, 6, 1, "siip"); (0, 6, 6, 2, "siid"); (0, 6, 6, 3, "siif");
    (0, 6, 6, 4, "siig"); (0, 6, 6, 5, "siih"); (0, 6, 6, 6, "siii"); (1, 0, 0, 6, "pssi");
    (1, 0, 1, 6, "pspi"); (1, 0, 2, 6, "psdi"); (1, 0, 3, 6, "psfi"); (1, 0, 4, 6, "psgi");
    (1, 0, 5, 6, "pshi"); (1, 0, 6, 0, "psis"); (1, 0, 6, 1, "psip"); (1, 0, 6, 2, "psid");
    (1, 0, 6, 3, "psif"); (1, 0, 6, 4, "psig"); (1, 0, 6, 5, "psih"); (1, 0, 6, 6, "psii");
    (1, 1, 0, 6, "ppsi"); (1, 1, 1, 6, "pppi"); (1, 1, 2, 6, "ppdi"); (1, 1, 3, 6, "ppfi");
    (1, 1, 4, 6, "ppgi"); (1, 1, 5, 6, "pphi"); (1, 1, 6, 0, "ppis"); (1, 1, 6, 1, "ppip");
    (1, 1, 6, 2, "ppid"); (1, 1, 6, 3, "ppif"); (1, 1, 6, 4, "ppig"); (1, 1, 6, 5, "ppih");
    (1, 1, 6, 6, "ppii"); (1, 2, 0, 6, "pdsi"); (1, 2, 1, 6, "pdpi"); (1, 2, 2, 6, "pddi");
    (1, 2, 3, 6, "pdfi"); (1, 2, 4, 6, "pdgi"); (1, 2, 5, 6, "pdhi"); (1, 2, 6, 0, "pdis");
    (1, 2, 6, 1, "pdip"); (1, 2, 6, 2, "pdid"); (1, 2, 6, 3, "pdif"); (1, 2, 6, 4, "pdig");
    (1, 2, 6, 5, "pdih"); (1, 2, 6, 6, "pdii"); (1, 3, 0, 6, "pfsi"); (1, 3, 1, 6, "pfpi");
    (1, 3, 2, 6, "pfdi"); (1, 3, 3, 6, "pffi"); (1, 3, 4, 6, "pfgi"); (1, 3, 5, 6, "pfhi");
    (1, 3, 6, 0, "pfis"); (1, 3, 6, 1, "pfip"); (1, 3, 6, 2, "pfid"); (1, 3, 6, 3, "pfif");
    (1, 3, 6, 4, "pfig"); (1, 3, 6, 5, "pfih"); (1, 3, 6, 6, "pfii"); (1, 4, 0, 6, "pgsi");
    (1, 4, 1, 6, "pgpi"); (1, 4, 2, 6, "pgdi"); (1, 4, 3, 6, "pgfi"); (1, 4, 4, 6, "pggi");
    (1, 4, 5, 6, "pghi"); (1, 4, 6, 0, "pgis"); (1, 4, 6, 1, "pgip"); (1, 4, 6, 2, "pgid");
    (1, 4, 6, 3, "pgif"); (1, 4, 6, 4, "pgig"); (1, 4, 6, 5, "pgih"); (1, 4, 6, 6, "pgii");
    (1, 5, 0, 6, "phsi"); (1, 5, 1, 6, "phpi"); (1, 5, 2, 6, "phdi"); (1, 5, 3, 6, "phfi");
    (1, 5, 4, 6, "phgi"); (1, 5, 5, 6, "phhi"); (1, 5, 6, 0, "phis"); (1, 5, 6, 1, "phip");
    (1, 5, 6, 2, "phid"); (1, 5, 6, 3, "phif"); (1, 5, 6, 4, "phig"); (1, 5, 6, 5, "phih");
    (1, 5, 6, 6, "phii"); (1, 6, 0, 0, "piss"); (1, 6, 0, 1, "pisp"); (1, 6, 0, 2, "pisd");
    (1, 6, 0, 3, "pisf"); (1, 6, 0, 4, "pisg"); (1, 6, 0, 5, "pish"); (1, 6, 0, 6, "pisi");
    (1, 6, 1, 0, "pips"); (1, 6, 1, 1, "pipp"); (1, 6, 1, 2, "pipd"); (1, 6, 1, 3, "pipf");
    (1, 6, 1, 4, "pipg"); (1, 6, 1, 5, "piph"); (1, 6, 1, 6, "pipi"); (1, 6, 2, 0, "pids");
    (1, 6, 2, 1, "pidp"); (1, 6, 2, 2, "pidd"); (1, 6, 2, 3, "pidf"); (1, 6, 2, 4, "pidg");
    (1, 6, 2, 5, "pidh"); (1, 6, 2, 6, "pidi"); (1, 6, 3, 0, "pifs"); (1, 6, 3, 1, "pifp");
    (1, 6, 3, 2, "pifd"); (1, 6, 3, 3, "piff"); (1, 6, 3, 4, "pifg"); (1, 6, 3, 5, "pifh");
    (1, 6, 3, 6, "pifi"); (1, 6, 4, 0, "pigs"); (1, 6, 4, 1, "pigp"); (1, 6, 4, 2, "pigd");
    (1, 6, 4, 3, "pigf"); (1, 6, 4, 4, "pigg"); (1, 6, 4, 5, "pigh"); (1, 6, 4, 6, "pigi");
    (1, 6, 5, 0, "pihs"); (1, 6, 5, 1, "pihp"); (1, 6, 5, 2, "pihd"); (1, 6, 5, 3, "pihf");
    (1, 6, 5, 4, "pihg"); (1, 6, 5, 5, "pihh"); (1, 6, 5, 6, "pihi"); (1, 6, 6, 0, "piis");
    (1, 6, 6, 1, "piip"); (1, 6, 6, 2, "piid"); (1, 6, 6, 3, "piif"); (1, 6, 6, 4, "piig");
    (1, 6, 6, 5, "piih"); (1, 6, 6, 6, "piii"); (2, 0, 0, 6, "dssi"); (2, 0, 1, 6, "dspi");
    (2, 0, 2, 6, "dsdi"); (2, 0, 3, 6, "dsfi"); (2, 0, 4, 6, "dsgi"); (2, 0, 5, 6, "dshi");
    (2, 0, 6, 0, "dsis"); (2, 0, 6, 1, "dsip"); (2, 0, 6, 2, "dsid"); (2, 0, 6, 3, "dsif");
    (2, 0, 6, 4, "dsig"); (2, 0, 6, 5, "dsih"); (2, 0, 6, 6, "dsii"); (2, 1, 0, 6, "dpsi");
    (2, 1, 1, 6, "dppi"); (2, 1, 2, 6, "dpdi"); (2, 1, 3, 6, "dpfi"); (2, 1, 4, 6, "dpgi");
    (2, 1, 5, 6, "dphi"); (2, 1, 6, 0, "dpis"); (2, 1, 6, 1, "dpip"); (2, 1, 6, 2, "dpid");
    (2, 1, 6, 3, "dpif"); (2, 1, 6, 4, "dpig"); (2, 1, 6, 5, "dpih"); (2, 1, 6, 6, "dpii");
    (2, 2, 0, 6, "ddsi"); (2, 2, 1, 6, "ddpi"); (2, 2, 2, 6, "dddi"); (2, 2, 3, 6, "ddfi");
    (2, 2, 4, 6, "ddgi"); (2, 2, 5, 6, "ddhi"); (2, 2, 6, 0, "ddis"); (2, 2, 6, 1, "ddip");
    (2, 2, 6, 2, "ddid"); (2, 2, 6, 3, "ddif"); (2, 2, 6, 4, "ddig"); (2, 2, 6, 5, "ddih");
    (2, 2, 6, 6, "ddii"); (2, 3, 0, 6, "dfsi"); (2, 3, 1, 6, "dfpi"); (2, 3, 2, 6, "dfdi");
    (2, 3, 3, 6, "dffi"); (2, 3, 4, 6, "dfgi"); (2, 3, 5, 6, "dfhi"); (2, 3, 6, 0, "dfis");
    (2, 3, 6, 1, "dfip"); (2, 3, 6, 2, "dfid"); (2, 3, 6, 3, "dfif"); (2, 3, 6, 4, "dfig");
    (2, 3, 6, 5, "dfih"); (2, 3, 6, 6, "dfii"); (2, 4, 0, 6, "dgsi"); (2, 4, 1, 6, "dgpi");
    (2, 4, 2, 6, "dgdi"); (2, 4, 3, 6, "dgfi"); (2, 4, 4, 6, "dggi"); (2, 4, 5, 6, "dghi");
    (2, 4, 6, 0, "dgis"); (2, 4, 6, 1, "dgip"); (2, 4, 6, 2, "dgid"); (2, 4, 6, 3, "dgif");
    (2, 4, 6, 4, "dgig"); (2, 4, 6, 5, "dgih"); (2, 4, 6, 6, "dgii"); (2, 5, 0, 6, "dhsi");
    (2, 5, 1, 6, "dhpi"); (2, 5, 2, 6, "dhdi"); (2, 5, 3, 6, "dhfi"); (2, 5, 4, 6, "dhgi");
    (2, 5, 5, 6, "dhhi"); (2, 5, 6, 0, "dhis"); (2, 5, 6, 1, "dhip"); (2, 5, 6, 2, "dhid");
    (2, 5, 6, 3, "dhif"); (2, 5, 6, 4, "dhig"); (2, 5, 6, 5, "dhih"); (2, 5, 6, 6, "dhii");
    (2, 6, 0, 0, "diss"); (2, 6, 0, 1, "disp"); (2, 6, 0, 2, "disd"); (2, 6, 0, 3, "disf");
    (2, 6, 0, 4, "disg"); (2, 6, 0, 5, "dish"); (2, 6, 0, 6, "disi"); (2, 6, 1, 0, "dips");
    (2, 6, 1, 1, "dipp"); (2, 6, 1, 2, "dipd"); (2, 6, 1, 3, "dipf"); (2, 6, 1, 4, "dipg");
    (2, 6, 1, 5, "diph"); (2, 6, 1, 6, "dipi"); (2, 6, 2, 0, "dids"); (2, 6, 2, 1, "didp");
    (2, 6, 2, 2, "didd"); (2, 6, 2, 3, "didf"); (2, 6, 2, 4, "didg"); (2, 6, 2, 5, "didh");
    (2, 6, 2, 6, "didi"); (2, 6, 3, 0, "difs"); (2, 6, 3, 1, "difp"); (2, 6, 3, 2, "difd");
    (2, 6, 3, 3, "diff"); (2, 6, 3, 4, "difg"); (2, 6, 3, 5, "difh"); (2, 6, 3, 6, "difi");
    (2, 6, 4, 0, "digs"); (2, 6, 4, 1, "digp"); (2, 6, 4, 2, "digd"); (2, 6, 4, 3, "digf");
    (2, 6, 4, 4, "digg"); (2, 6, 4, 5, "digh"); (2, 6, 4, 6, "digi"); (2, 6, 5, 0, "dihs");
    (2, 6, 5, 1, "dihp"); (2, 6, 5, 2, "dihd"); (2, 6, 5, 3, "dihf"); (2, 6, 5, 4, "dihg");
    (2, 6, 5, 5, "dihh"); (2, 6, 5, 6, "dihi"); (2, 6, 6, 0, "diis"); (2, 6, 6, 1, "diip");
    (2, 6, 6, 2, "diid"); (2, 6, 6, 3, "diif"); (2, 6, 6, 4, "diig"); (2, 6, 6, 5, "diih");
    (2, 6, 6, 6, "diii"); (3, 0, 0, 6, "fssi"); (3, 0, 1, 6, "fspi"); (3, 0, 2, 6, "fsdi");
    (3, 0, 3, 6, "fsfi"); (3, 0, 4, 6, "fsgi"); (3, 0, 5, 6, "fshi"); (3, 0, 6, 0, "fsis");
    (3, 0, 6, 1, "fsip"); (3, 0, 6, 2, "fsid"); (3, 0, 6, 3, "fsif"); (3, 0, 6, 4, "fsig");
    (3, 0, 6, 5, "fsih"); (3, 0, 6, 6, "fsii"); (3, 1, 0, 6, "fpsi"); (3, 1, 1, 6, "fppi");
    (3, 1, 2, 6, "fpdi"); (3, 1, 3, 6, "fpfi"); (3, 1, 4, 6, "fpgi"); (3, 1, 5, 6, "fphi");
    (3, 1, 6, 0, "fpis"); (3, 1, 6, 1, "fpip"); (3, 1, 6, 2, "fpid"); (3, 1, 6, 3, "fpif");
    (3, 1, 6, 4, "fpig"); (3, 1, 6, 5, "fpih"); (3, 1, 6, 6, "fpii"); (3, 2, 0, 6, "fdsi");
    (3, 2, 1, 6, "fdpi"); (3, 2, 2, 6, "fddi"); (3, 2, 3, 6, "fdfi"); (3, 2, 4, 6, "fdgi");
    (3, 2, 5, 6, "fdhi"); (3, 2, 6, 0, "fdis"); (3, 2, 6, 1, "fdip"); (3, 2, 6, 2, "fdid");
    (3, 2, 6, 3, "fdif"); (3, 2, 6, 4, "fdig"); (3, 2, 6, 5, "fdih"); (3, 2, 6, 6, "fdii");
    (3, 3, 0, 6, "ffsi"); (3, 3, 1, 6, "ffpi"); (3, 3, 2, 6, "ffdi"); (3, 3, 3, 6, "fffi");
    (3, 3, 4, 6, "ffgi"); (3, 3, 5, 6, "ffhi"); (3, 3, 6, 0, "ffis"); (3, 3, 6, 1, "ffip");
    (3, 3, 6, 2, "ffid"); (3, 3, 6, 3, "ffif"); (3, 3, 6, 4, "ffig"); (3, 3, 6, 5, "ffih");
    (3, 3, 6, 6, "ffii"); (3, 4, 0, 6, "fgsi"); (3, 4, 1, 6, "fgpi"); (3, 4, 2, 6, "fgdi");
    (3, 4, 3, 6, "fgfi"); (3, 4, 4, 6, "fggi"); (3, 4, 5, 6, "fghi"); (3, 4, 6, 0, "fgis");
    (3, 4, 6, 1, "fgip"); (3, 4, 6, 2, "fgid"); (3, 4, 6, 3, "fgif"); (3, 4, 6, 4, "fgig");
    (3, 4, 6, 5, "fgih"); (3, 4, 6, 6, "fgii"); (3, 5, 0, 6, "fhsi"); (3, 5, 1, 6, "fhpi");
    (3, 5, 2, 6, "fhdi"); (3, 5, 3, 6, "fhfi"); (3, 5, 4, 6, "fhgi"); (3, 5, 5, 6, "fhhi");
    (3, 5, 6, 0, "fhis"); (3, 5, 6, 1, "fhip"); (3, 5, 6, 2, "fhid"); (3, 5, 6, 3, "fhif");
    (3, 5, 6, 4, "fhig"); (3, 5, 6, 5, "fhih"); (3, 5, 6, 6, "fhii"); (3, 6, 0, 0, "fiss");
    (3, 6, 0, 1, "fisp"); (3, 6, 0, 2, "fisd"); (3, 6, 0, 3, "fisf"); (3, 6, 0, 4, "fisg");
    (3, 6, 0, 5, "fish"); (3, 6, 0, 6, "fisi"); (3, 6, 1, 0, "fips"); (3, 6, 1, 1, "fipp");
    (3, 6, 1, 2, "fipd"); (3, 6, 1, 3, "fipf"); (3, 6, 1, 4, "fipg"); (3, 6, 1, 5, "fiph");
    (3, 6, 1, 6, "fipi"); (3, 6, 2, 0, "fids"); (3, 6, 2, 1, "fidp"); (3, 6, 2, 2, "fidd");
    (3, 6, 2, 3, "fidf"); (3, 6, 2, 4, "fidg"); (3, 6, 2, 5, "fidh"); (3, 6, 2, 6, "fidi");
    (3, 6, 3, 0, "fifs"); (3, 6, 3, 1, "fifp"); (3, 6, 3, 2, "fifd"); (3, 6, 3, 3, "fiff");
    (3, 6, 3, 4, "fifg"); (3, 6, 3, 5, "fifh"); (3, 6, 3, 6, "fifi"); (3, 6, 4, 0, "figs");
    (3, 6, 4, 1, "figp"); (3, 6, 4, 2, "figd"); (3, 6, 4, 3, "figf"); (3, 6, 4, 4, "figg");
    (3, 6, 4, 5, "figh"); (3, 6, 4, 6, "figi"); (3, 6, 5, 0, "fihs"); (3, 6, 5, 1, "fihp");
    (3, 6, 5, 2, "fihd"); (3, 6, 5, 3, "fihf"); (3, 6, 5, 4, "fihg"); (3, 6, 5, 5, "fihh");
    (3, 6, 5, 6, "fihi"); (3, 6, 6, 0, "fiis"); (3, 6, 6, 1, "fiip"); (3, 6, 6, 2, "fiid");
    (3, 6, 6, 3, "fiif"); (3, 6, 6, 4, "fiig"); (3, 6, 6, 5, "fiih"); (3, 6, 6, 6, "fiii");
    (4, 0, 0, 6, "gssi"); (4, 0, 1, 6, "gspi"); (4, 0, 2, 6, "gsdi"); (4, 0, 3, 6, "gsfi");
    (4, 0, 4, 6, "gsgi"); (4, 0, 5, 6, "gshi"); (4, 0, 6, 0, "gsis"); (4, 0, 6, 1, "gsip");
    (4, 0, 6, 2, "gsid"); (4, 0, 6, 3, "gsif"); (4, 0, 6, 4, "gsig"); (4, 0, 6, 5, "gsih");
    (4, 0, 6, 6, "gsii"); (4, 1, 0, 6, "gpsi"); (4, 1, 1, 6, "gppi"); (4, 1, 2, 6, "gpdi");
    (4, 1, 3, 6, "gpfi"); (4, 1, 4, 6, "gpgi"); (4, 1, 5, 6, "gphi"); (4, 1, 6, 0, "gpis");
    (4, 1, 6, 1, "gpip"); (4, 1, 6, 2, "gpid"); (4, 1, 6, 3, "gpif"); (4, 1, 6, 4, "gpig");
    (4, 1, 6, 5, "gpih"); (4, 1, 6, 6, "gpii"); (4, 2, 0, 6, "gdsi"); (4, 2, 1, 6, "gdpi");
    (4, 2, 2, 6, "gddi"); (4, 2, 3, 6, "gdfi"); (4, 2, 4, 6, "gdgi"); (4, 2, 5, 6, "gdhi");
    (4, 2, 6, 0, "gdis"); (4, 2, 6, 1, "gdip"); (4, 2, 6, 2, "gdid"); (4, 2, 6, 3, "gdif");
    (4, 2, 6, 4, "gdig"); (4, 2, 6, 5, "gdih"); (4, 2, 6, 6, "gdii"); (4, 3, 0, 6, "gfsi");
    (4, 3, 1, 6, "gfpi"); (4, 3, 2, 6, "gfdi"); (4, 3, 3, 6, "gffi"); (4, 3, 4, 6, "gfgi");
    (4, 3, 5, 6, "gfhi"); (4, 3, 6, 0, "gfis"); (4, 3, 6, 1, "gfip"); (4, 3, 6, 2, "gfid");
    (4, 3, 6, 3, "gfif"); (4, 3, 6, 4, "gfig"); (4, 3, 6, 5, "gfih"); (4, 3, 6, 6, "gfii");
    (4, 4, 0, 6, "ggsi"); (4, 4, 1, 6, "ggpi"); (4, 4, 2, 6, "ggdi"); (4, 4, 3, 6, "ggfi");
    (4, 4, 4, 6, "gggi"); (4, 4, 5, 6, "gghi"); (4, 4, 6, 0, "ggis"); (4, 4, 6, 1, "ggip");
    (4, 4, 6, 2, "ggid"); (4, 4, 6, 3, "ggif"); (4, 4, 6, 4, "ggig"); (4, 4, 6, 5, "ggih");
    (4, 4, 6, 6, "ggii"); (4, 5, 0, 6, "ghsi"); (4, 5, 1, 6, "ghpi"); (4, 5, 2, 6, "ghdi");
    (4, 5, 3, 6, "ghfi"); (4, 5, 4, 6, "ghgi"); (4, 5, 5, 6, "ghhi"); (4, 5, 6, 0, "ghis");
    (4, 5, 6, 1, "ghip"); (4, 5, 6, 2, "ghid"); (4, 5, 6, 3, "ghif"); (4, 5, 6, 4, "ghig");
    (4, 5, 6, 5, "ghih"); (4, 5, 6, 6, "ghii"); (4, 6, 0, 0, "giss"); (4, 6, 0, 1, "gisp");
    (4, 6, 0, 2, "gisd"); (4, 6, 0, 3, "gisf"); (4, 6, 0, 4, "gisg"); (4, 6, 0, 5, "gish");
    (4, 6, 0, 6, "gisi"); (4, 6, 1, 0, "gips"); (4, 6, 1, 1, "gipp"); (4, 6, 1, 2, "gipd");
    (4, 6, 1, 3, "gipf"); (4, 6, 1, 4, "gipg"); (4, 6, 1, 5, "giph"); (4, 6, 1, 6, "gipi");
    (4, 6, 2, 0, "gids"); (4, 6, 2, 1, "gidp"); (4, 6, 2, 2, "gidd"); (4, 6, 2, 3, "gidf");
    (4, 6, 2, 4, "gidg"); (4, 6, 2, 5, "gidh"); (4, 6, 2, 6, "gidi"); (4, 6, 3, 0, "gifs");
    (4, 6, 3, 1, "gifp"); (4, 6, 3, 2, "gifd"); (4, 6, 3, 3, "giff"); (4, 6, 3, 4, "gifg");
    (4, 6, 3, 5, "gifh"); (4, 6, 3, 6, "gifi"); (4, 6, 4, 0, "gigs"); (4, 6, 4, 1, "gigp");
    (4, 6, 4, 2, "gigd"); (4, 6, 4, 3, "gigf"); (4, 6, 4, 4, "gigg"); (4, 6, 4, 5, "gigh");
    (4, 6, 4, 6, "gigi"); (4, 6, 5, 0, "gihs"); (4, 6, 5, 1, "gihp"); (4, 6, 5, 2, "gihd");
    (4, 6, 5, 3, "gihf"); (4, 6, 5, 4, "gihg"); (4, 6, 5, 5, "gihh"); (4, 6, 5, 6, "gihi");
    (4, 6, 6, 0, "giis"); (4, 6, 6, 1, "giip"); (4, 6, 6, 2, "giid"); (4, 6, 6, 3, "giif");
    (4, 6, 6, 4, "giig"); (4, 6, 6, 5, "giih"); (4, 6, 6, 6, "giii"); (5, 0, 0, 6, "hssi");
    (5, 0, 1, 6, "hspi"); (5, 0, 2, 6, "hsdi"); (5, 0, 3, 6, "hsfi"); (5, 0, 4, 6, "hsgi");
    (5, 0, 5, 6, "hshi"); (5, 0, 6, 0, "hsis"); (5, 0, 6, 1, "hsip"); (5, 0, 6, 2, "hsid");
    (5, 0, 6, 3, "hsif"); (5, 0, 6, 4, "hsig"); (5, 0, 6, 5, "hsih"); (5, 0, 6, 6, "hsii");
    (5, 1, 0, 6, "hpsi"); (5, 1, 1, 6, "hppi"); (5, 1, 2, 6, "hpdi"); (5, 1, 3, 6, "hpfi");
    (5, 1, 4, 6, "hpgi"); (5, 1, 5, 6, "hphi"); (5, 1, 6, 0, "hpis"); (5, 1, 6, 1, "hpip");
    (5, 1, 6, 2, "hpid"); (5, 1, 6, 3, "hpif"); (5, 1, 6, 4, "hpig"); (5, 1, 6, 5, "hpih");
    (5, 1, 6, 6, "hpii"); (5, 2, 0, 6, "hdsi"); (5, 2, 1, 6, "hdpi"); (5, 2, 2, 6, "hddi");
    (5, 2, 3, 6, "hdfi"); (5, 2, 4, 6, "hdgi"); (5, 2, 5, 6, "hdhi"); (5, 2, 6, 0, "hdis");
    (5, 2, 6, 1, "hdip"); (5, 2, 6, 2, "hdid"); (5, 2, 6, 3, "hdif"); (5, 2, 6, 4, "hdig");
    (5, 2, 6, 5, "hdih"); (5, 2, 6, 6, "hdii"); (5, 3, 0, 6, "hfsi"); (5, 3, 1, 6, "hfpi");
    (5, 3, 2, 6, "hfdi"); (5, 3, 3, 6, "hffi"); (5, 3, 4, 6, "hfgi"); (5, 3, 5, 6, "hfhi");
    (5, 3, 6, 0, "hfis"); (5, 3, 6, 1, "hfip"); (5, 3, 6, 2, "hfid"); (5, 3, 6, 3, "hfif");
    (5, 3, 6, 4, "hfig"); (5, 3, 6, 5, "hfih"); (5, 3, 6, 6, "hfii"); (5, 4, 0, 6, "hgsi");
    (5, 4, 1, 6, "hgpi"); (5, 4, 2, 6, "hgdi"); (5, 4, 3, 6, "hgfi"); (5, 4, 4, 6, "hggi");
    (5, 4, 5, 6, "hghi"); (5, 4, 6, 0, "hgis"); (5, 4, 6, 1, "hgip"); (5, 4, 6, 2, "hgid");
    (5, 4, 6, 3, "hgif"); (5, 4, 6, 4, "hgig"); (5, 4, 6, 5, "hgih"); (5, 4, 6, 6, "hgii");
    (5, 5, 0, 6, "hhsi"); (5, 5, 1, 6, "hhpi"); (5, 5, 2, 6, "hhdi"); (5, 5, 3, 6, "hhfi");
    (5, 5, 4, 6, "hhgi"); (5, 5, 5, 6, "hhhi"); (5, 5, 6, 0, "hhis"); (5, 5, 6, 1, "hhip");
    (5, 5, 6, 2, "hhid"); (5, 5, 6, 3, "hhif"); (5, 5, 6, 4, "hhig"); (5, 5, 6, 5, "hhih");
    (5, 5, 6, 6, "hhii"); (5, 6, 0, 0, "hiss"); (5, 6, 0, 1, "hisp"); (5, 6, 0, 2, "hisd");
    (5, 6, 0, 3, "hisf"); (5, 6, 0, 4, "hisg"); (5, 6, 0, 5, "hish"); (5, 6, 0, 6, "hisi");
    (5, 6, 1, 0, "hips"); (5, 6, 1, 1, "hipp"); (5, 6, 1, 2, "hipd"); (5, 6, 1, 3, "hipf");
    (5, 6, 1, 4, "hipg"); (5, 6, 1, 5, "hiph"); (5, 6, 1, 6, "hipi"); (5, 6, 2, 0, "hids");
    (5, 6, 2, 1, "hidp"); (5, 6, 2, 2, "hidd"); (5, 6, 2, 3, "hidf"); (5, 6, 2, 4, "hidg");
    (5, 6, 2, 5, "hidh"); (5, 6, 2, 6, "hidi"); (5, 6, 3, 0, "hifs"); (5, 6, 3, 1, "hifp");
    (5, 6, 3, 2, "hifd"); (5, 6, 3, 3, "hiff"); (5, 6, 3, 4, "hifg"); (5, 6, 3, 5, "hifh");
    (5, 6, 3, 6, "hifi"); (5, 6, 4, 0, "higs"); (5, 6, 4, 1, "higp"); (5, 6, 4, 2, "higd");
    (5, 6, 4, 3, "higf"); (5, 6, 4, 4, "higg"); (5, 6, 4, 5, "high"); (5, 6, 4, 6, "higi");
    (5, 6, 5, 0, "hihs"); (5, 6, 5, 1, "hihp"); (5, 6, 5, 2, "hihd"); (5, 6, 5, 3, "hihf");
    (5, 6, 5, 4, "hihg"); (5, 6, 5, 5, "hihh"); (5, 6, 5, 6, "hihi"); (5, 6, 6, 0, "hiis");
    (5, 6, 6, 1, "hiip"); (5, 6, 6, 2, "hiid"); (5, 6, 6, 3, "hiif"); (5, 6, 6, 4, "hiig");
    (5, 6, 6, 5, "hiih"); (5, 6, 6, 6, "hiii"); (6, 0, 0, 0, "isss"); (6, 0, 0, 1, "issp");
    (6, 0, 0, 2, "issd"); (6, 0, 0, 3, "issf"); (6, 0, 0, 4, "issg"); (6, 0, 0, 5, "issh");
    (6, 0, 0, 6, "issi"); (6, 0, 1, 0, "isps"); (6, 0, 1, 1, "ispp"); (6, 0, 1, 2, "ispd");
    (6, 0, 1, 3, "ispf"); (6, 0, 1, 4, "ispg"); (6, 0, 1, 5, "isph"); (6, 0, 1, 6, "ispi");
    (6, 0, 2, 0, "isds"); (6, 0, 2, 1, "isdp"); (6, 0, 2, 2, "isdd"); (6, 0, 2, 3, "isdf");
    (6, 0, 2, 4, "isdg"); (6, 0, 2, 5, "isdh"); (6, 0, 2, 6, "isdi"); (6, 0, 3, 0, "isfs");
    (6, 0, 3, 1, "isfp"); (6, 0, 3, 2, "isfd"); (6, 0, 3, 3, "isff"); (6, 0, 3, 4, "isfg");
    (6, 0, 3, 5, "isfh"); (6, 0, 3, 6, "isfi"); (6, 0, 4, 0, "isgs"); (6, 0, 4, 1, "isgp");
    (6, 0, 4, 2, "isgd"); (6, 0, 4, 3, "isgf"); (6, 0, 4, 4, "isgg"); (6, 0, 4, 5, "isgh");
    (6, 0, 4, 6, "isgi"); (6, 0, 5, 0, "ishs"); (6, 0, 5, 1, "ishp"); (6, 0, 5, 2, "ishd");
    (6, 0, 5, 3, "ishf"); (6, 0, 5, 4, "ishg"); (6, 0, 5, 5, "ishh"); (6, 0, 5, 6, "ishi");
    (6, 0, 6, 0, "isis"); (6, 0, 6, 1, "isip"); (6, 0, 6, 2, "isid"); (6, 0, 6, 3, "isif");
    (6, 0, 6, 4, "isig"); (6, 0, 6, 5, "isih"); (6, 0, 6, 6, "isii"); (6, 1, 0, 0, "ipss");
    (6, 1, 0, 1, "ipsp"); (6, 1, 0, 2, "ipsd"); (6, 1, 0, 3, "ipsf"); (6, 1, 0, 4, "ipsg");
    (6, 1, 0, 5, "ipsh"); (6, 1, 0, 6, "ipsi"); (6, 1, 1, 0, "ipps"); (6, 1, 1, 1, "ippp");
    (6, 1, 1, 2, "ippd"); (6, 1, 1, 3, "ippf"); (6, 1, 1, 4, "ippg"); (6, 1, 1, 5, "ipph");
    (6, 1, 1, 6, "ippi"); (6, 1, 2, 0, "ipds"); (6, 1, 2, 1, "ipdp"); (6, 1, 2, 2, "ipdd");
    (6, 1, 2, 3, "ipdf"); (6, 1, 2, 4, "ipdg"); (6, 1, 2, 5, "ipdh"); (6, 1, 2, 6, "ipdi");
    (6, 1, 3, 0, "ipfs"); (6, 1, 3, 1, "ipfp"); (6, 1, 3, 2, "ipfd"); (6, 1, 3, 3, "ipff");
    (6, 1, 3, 4, "ipfg"); (6, 1, 3, 5, "ipfh"); (6, 1, 3, 6, "ipfi"); (6, 1, 4, 0, "ipgs");
    (6, 1, 4, 1, "ipgp"); (6, 1, 4, 2, "ipgd"); (6, 1, 4, 3, "ipgf"); (6, 1, 4, 4, "ipgg");
    (6, 1, 4, 5, "ipgh"); (6, 1, 4, 6, "ipgi"); (6, 1, 5, 0, "iphs"); (6, 1, 5, 1, "iphp");
    (6, 1, 5, 2, "iphd"); (6, 1, 5, 3, "iphf"); (6, 1, 5, 4, "iphg"); (6, 1, 5, 5, "iphh");
    (6, 1, 5, 6, "iphi"); (6, 1, 6, 0, "ipis"); (6, 1, 6, 1, "ipip"); (6, 1, 6, 2, "ipid");
    (6, 1, 6, 3, "ipif"); (6, 1, 6, 4, "ipig"); (6, 1, 6, 5, "ipih"); (6, 1, 6, 6, "ipii");
    (6, 2, 0, 0, "idss"); (6, 2, 0, 1, "idsp"); (6, 2, 0, 2, "idsd"); (6, 2, 0, 3, "idsf");
    (6, 2, 0, 4, "idsg"); (6, 2, 0, 5, "idsh"); (6, 2, 0, 6, "idsi"); (6, 2, 1, 0, "idps");
    (6, 2, 1, 1, "idpp"); (6, 2, 1, 2, "idpd"); (6, 2, 1, 3, "idpf"); (6, 2, 1, 4, "idpg");
    (6, 2, 1, 5, "idph"); (6, 2, 1, 6, "idpi"); (6, 2, 2, 0, "idds"); (6, 2, 2, 1, "iddp");
    (6, 2, 2, 2, "iddd"); (6, 2, 2, 3, "iddf"); (6, 2, 2, 4, "iddg"); (6, 2, 2, 5, "iddh");
    (6, 2, 2, 6, "iddi"); (6, 2, 3, 0, "idfs"); (6, 2, 3, 1, "idfp"); (6, 2, 3, 2, "idfd");
    (6, 2, 3, 3, "idff"); (6, 2, 3, 4, "idfg"); (6, 2, 3, 5, "idfh"); (6, 2, 3, 6, "idfi");
    (6, 2, 4, 0, "idgs"); (6, 2, 4, 1, "idgp"); (6, 2, 4, 2, "idgd"); (6, 2, 4, 3, "idgf");
    (6, 2, 4, 4, "idgg"); (6, 2, 4, 5, "idgh"); (6, 2, 4, 6, "idgi"); (6, 2, 5, 0, "idhs");
    (6, 2, 5, 1, "idhp"); (6, 2, 5, 2, "idhd"); (6, 2, 5, 3, "idhf"); (6, 2, 5, 4, "idhg");
    (6, 2, 5, 5, "idhh"); (6, 2, 5, 6, "idhi"); (6, 2, 6, 0, "idis"); (6, 2, 6, 1, "idip");
    (6, 2, 6, 2, "idid"); (6, 2, 6, 3, "idif"); (6, 2, 6, 4, "idig"); (6, 2, 6, 5, "idih");
    (6, 2, 6, 6, "idii"); (6, 3, 0, 0, "ifss"); (6, 3, 0, 1, "ifsp"); (6, 3, 0, 2, "ifsd");
    (6, 3, 0, 3, "ifsf"); (6, 3, 0, 4, "ifsg"); (6, 3, 0, 5, "ifsh"); (6, 3, 0, 6, "ifsi");
    (6, 3, 1, 0, "ifps"); (6, 3, 1, 1, "ifpp"); (6, 3, 1, 2, "ifpd"); (6, 3, 1, 3, "ifpf");
    (6, 3, 1, 4, "ifpg"); (6, 3, 1, 5, "ifph"); (6, 3, 1, 6, "ifpi"); (6, 3, 2, 0, "ifds");
    (6, 3, 2, 1, "ifdp"); (6, 3, 2, 2, "ifdd"); (6, 3, 2, 3, "ifdf"); (6, 3, 2, 4, "ifdg");
    (6, 3, 2, 5, "ifdh"); (6, 3, 2, 6, "ifdi"); (6, 3, 3, 0, "iffs"); (6, 3, 3, 1, "iffp");
    (6, 3, 3, 2, "iffd"); (6, 3, 3, 3, "ifff"); (6, 3, 3, 4, "iffg"); (6, 3, 3, 5, "iffh");
    (6, 3, 3, 6, "iffi"); (6, 3, 4, 0, "ifgs"); (6, 3, 4, 1, "ifgp"); (6, 3, 4, 2, "ifgd");
    (6, 3, 4, 3, "ifgf"); (6, 3, 4, 4, "ifgg"); (6, 3, 4, 5, "ifgh"); (6, 3, 4, 6, "ifgi");
    (6, 3, 5, 0, "ifhs"); (6, 3, 5, 1, "ifhp"); (6, 3, 5, 2, "ifhd"); (6, 3, 5, 3, "ifhf");
    (6, 3, 5, 4, "ifhg"); (6, 3, 5, 5, "ifhh"); (6, 3, 5, 6, "ifhi"); (6, 3, 6, 0, "ifis");
    (6, 3, 6, 1, "ifip"); (6, 3, 6, 2, "ifid"); (6, 3, 6, 3, "ifif"); (6, 3, 6, 4, "ifig");
    (6, 3, 6, 5, "ifih"); (6, 3, 6, 6, "ifii"); (6, 4, 0, 0, "igss"); (6, 4, 0, 1, "igsp");
    (6, 4, 0, 2, "igsd"); (6, 4, 0, 3, "igsf"); (6, 4, 0, 4, "igsg"); (6, 4, 0, 5, "igsh");
    (6, 4, 0, 6, "igsi"); (6, 4, 1, 0, "igps"); (6, 4, 1, 1, "igpp"); (6, 4, 1, 2, "igpd");
    (6, 4, 1, 3, "igpf"); (6, 4, 1, 4, "igpg"); (6, 4, 1, 5, "igph"); (6, 4, 1, 6, "igpi");
    (6, 4, 2, 0, "igds"); (6, 4, 2, 1, "igdp"); (6, 4, 2, 2, "igdd"); (6, 4, 2, 3, "igdf");
    (6, 4, 2, 4, "igdg"); (6, 4, 2, 5, "igdh"); (6, 4, 2, 6, "igdi"); (6, 4, 3, 0, "igfs");
    (6, 4, 3, 1, "igfp"); (6, 4, 3, 2, "igfd"); (6, 4, 3, 3, "igff"); (6, 4, 3, 4, "igfg");
    (6, 4, 3, 5, "igfh"); (6, 4, 3, 6, "igfi"); (6, 4, 4, 0, "iggs"); (6, 4, 4, 1, "iggp");
    (6, 4, 4, 2, "iggd"); (6, 4, 4, 3, "iggf"); (6, 4, 4, 4, "iggg"); (6, 4, 4, 5, "iggh");
    (6, 4, 4, 6, "iggi"); (6, 4, 5, 0, "ighs"); (6, 4, 5, 1, "ighp"); (6, 4, 5, 2, "ighd");
    (6, 4, 5, 3, "ighf"); (6, 4, 5, 4, "ighg"); (6, 4, 5, 5, "ighh"); (6, 4, 5, 6, "ighi");
    (6, 4, 6, 0, "igis"); (6, 4, 6, 1, "igip"); (6, 4, 6, 2, "igid"); (6, 4, 6, 3, "igif");
    (6, 4, 6, 4, "igig"); (6, 4, 6, 5, "igih"); (6, 4, 6, 6, "igii"); (6, 5, 0, 0, "ihss");
    (6, 5, 0, 1, "ihsp"); (6, 5, 0, 2, "ihsd"); (6, 5, 0, 3, "ihsf"); (6, 5, 0, 4, "ihsg");
    (6, 5, 0, 5, "ihsh"); (6, 5, 0, 6, "ihsi"); (6, 5, 1, 0, "ihps"); (6, 5, 1, 1, "ihpp");
    (6, 5, 1, 2, "ihpd"); (6, 5, 1, 3, "ihpf"); (6, 5, 1, 4, "ihpg"); (6, 5, 1, 5, "ihph");
    (6, 5, 1, 6, "ihpi"); (6, 5, 2, 0, "ihds"); (6, 5, 2, 1, "ihdp"); (6, 5, 2, 2, "ihdd");
    (6, 5, 2, 3, "ihdf"); (6, 5, 2, 4, "ihdg"); (6, 5, 2, 5, "ihdh"); (6, 5, 2, 6, "ihdi");
    (6, 5, 3, 0, "ihfs"); (6, 5, 3, 1, "ihfp"); (6, 5, 3, 2, "ihfd"); (6, 5, 3, 3, "ihff");
    (6, 5, 3, 4, "ihfg"); (6, 5, 3, 5, "ihfh"); (6, 5, 3, 6, "ihfi"); (6, 5, 4, 0, "ihgs");
    (6, 5, 4, 1, "ihgp"); (6, 5, 4, 2, "ihgd"); (6, 5, 4, 3, "ihgf"); (6, 5, 4, 4, "ihgg");
    (6, 5, 4, 5, "ihgh"); (6, 5, 4, 6, "ihgi"); (6, 5, 5, 0, "ihhs"); (6, 5, 5, 1, "ihhp");
    (6, 5, 5, 2, "ihhd"); (6, 5, 5, 3, "ihhf"); (6, 5, 5, 4, "ihhg"); (6, 5, 5, 5, "ihhh");
    (6, 5, 5, 6, "ihhi"); (6, 5, 6, 0, "ihis"); (6, 5, 6, 1, "ihip"); (6, 5, 6, 2, "ihid");
    (6, 5, 6, 3, "ihif"); (6, 5, 6, 4, "ihig"); (6, 5, 6, 5, "ihih"); (6, 5, 6, 6, "ihii");
    (6, 6, 0, 0, "iiss"); (6, 6, 0, 1, "iisp"); (6, 6, 0, 2, "iisd"); (6, 6, 0, 3, "iisf");
    (6, 6, 0, 4, "iisg"); (6, 6, 0, 5, "iish"); (6, 6, 0, 6, "iisi"); (6, 6, 1, 0, "iips");
    (6, 6, 1, 1, "iipp"); (6, 6, 1, 2, "iipd"); (6, 6, 1, 3, "iipf"); (6, 6, 1, 4, "iipg");
    (6, 6, 1, 5, "iiph"); (6, 6, 1, 6, "iipi"); (6, 6, 2, 0, "iids"); (6, 6, 2, 1, "iidp");
    (6, 6, 2, 2, "iidd"); (6, 6, 2, 3, "iidf"); (6, 6, 2, 4, "iidg"); (6, 6, 2, 5, "iidh");
    (6, 6, 2, 6, "iidi"); (6, 6, 3, 0, "iifs"); (6, 6, 3, 1, "iifp"); (6, 6, 3, 2, "iifd");
    (6, 6, 3, 3, "iiff"); (6, 6, 3, 4, "iifg"); (6, 6, 3, 5, "iifh"); (6, 6, 3, 6, "iifi");
    (6, 6, 4, 0, "iigs"); (6, 6, 4, 1, "iigp"); (6, 6, 4, 2, "iigd"); (6, 6, 4, 3, "iigf");
    (6, 6, 4, 4, "iigg"); (6, 6, 4, 5, "iigh"); (6, 6, 4, 6, "iigi"); (6, 6, 5, 0, "iihs");
    (6, 6, 5, 1, "iihp"); (6, 6, 5, 2, "iihd"); (6, 6, 5, 3, "iihf"); (6, 6, 5, 4, "iihg");
    (6, 6, 5, 5, "iihh"); (6, 6, 5, 6, "iihi"); (6, 6, 6, 0, "iiis"); (6, 6, 6, 1, "iiip");
    (6, 6, 6, 2, "iiid"); (6, 6, 6, 3, "iiif"); (6, 6, 6, 4, "iiig"); (6, 6, 6, 5, "iiih");
    (6, 6, 6, 6, "iiii")]);
   (7, [(0, 0, 0, 7, "sssk"); (0, 0, 1, 7, "sspk"); (0, 0, 2, 7, "ssdk"); (0, 0, 3, 7, "ssfk");
    (0, 0, 4, 7, "ssgk"); (0, 0, 5, 7, "sshk"); (0, 0, 6, 7, "ssik"); (0, 0, 7, 0, "ssks");
    (0, 0, 7, 1, "sskp"); (0, 0, 7, 2, "sskd"); (0, 0, 7, 3, "sskf"); (0, 0, 7, 4, "sskg");
    (0, 0, 7, 5, "sskh"); (0, 0, 7, 6, "sski"); (0, 0, 7, 7, "sskk"); (0, 1, 0, 7, "spsk");
    (0, 1, 1, 7, "sppk"); (0, 1, 2, 7, "spdk"); (0, 1, 3, 7, "spfk"); (0, 1, 4, 7, "spgk");
    (0, 1, 5, 7, "sphk"); (0, 1, 6, 7, "spik"); (0, 1, 7, 0, "spks"); (0, 1, 7, 1, "spkp");
    (0, 1, 7, 2, "spkd"); (0, 1, 7, 3, "spkf"); (0, 1, 7, 4, "spkg"); (0, 1, 7, 5, "spkh");
    (0, 1, 7, 6, "spki"); (0, 1, 7, 7, "spkk"); (0, 2, 0, 7, "sdsk"); (0, 2, 1, 7, "sdpk");
    (0, 2, 2, 7, "sddk"); (0, 2, 3, 7, "sdfk"); (0, 2, 4, 7, "sdgk"); (0, 2, 5, 7, "sdhk");
    (0, 2, 6, 7, "sdik"); (0, 2, 7, 0, "sdks"); (0, 2, 7, 1, "sdkp"); (0, 2, 7, 2, "sdkd");
    (0, 2, 7, 3, "sdkf"); (0, 2, 7, 4, "sdkg"); (0, 2, 7, 5, "sdkh"); (0, 2, 7, 6, "sdki");
    (0, 2, 7, 7, "sdkk"); (0, 3, 0, 7, "sfsk"); (0, 3, 1, 7, "sfpk"); (0, 3, 2, 7, "sfdk");
    (0, 3, 3, 7, "sffk"); (0, 3, 4, 7, "sfgk"); (0, 3, 5, 7, "sfhk"); (0, 3, 6, 7, "sfik");
    (0, 3, 7, 0, "sfks"); (0, 3, 7, 1, "sfkp"); (0, 3, 7, 2, "sfkd"); (0, 3, 7, 3, "sfkf");
    (0, 3, 7, 4, "sfkg"); (0, 3, 7, 5, "sfkh"); (0, 3, 7, 6, "sfki"); (0, 3, 7, 7, "sfkk");
    (0, 4, 0, 7, "sgsk"); (0, 4, 1, 7, "sgpk"); (0, 4, 2, 7, "sgdk"); (0, 4, 3, 7, "sgfk");
    (0, 4, 4, 7, "sggk"); (0, 4, 5, 7, "sghk"); (0, 4, 6, 7, "sgik"); (0, 4, 7, 0, "sgks");
    (0, 4, 7, 1, "sgkp"); (0, 4, 7, 2, "sgkd"); (0, 4, 7, 3, "sgkf"); (0, 4, 7, 4, "sgkg");
    (0, 4, 7, 5, "sgkh"); (0, 4, 7, 6, "sgki"); (0, 4, 7, 7, "sgkk"); (0, 5, 0, 7, "shsk");
    (0, 5, 1, 7, "shpk"); (0, 5, 2, 7, "shdk"); (0, 5, 3, 7, "shfk"); (0, 5, 4, 7, "shgk");
    (0, 5, 5, 7, "shhk"); (0, 5, 6, 7, "shik"); (0, 5, 7, 0, "shks"); (0, 5, 7, 1, "shkp");
    (0, 5, 7, 2, "shkd"); (0, 5, 7, 3, "shkf"); (0, 5, 7, 4, "shkg"); (0, 5, 7, 5, "shkh");
    (0, 5, 7, 6, "shki"); (0, 5, 7, 7, "shkk"); (0, 6, 0, 7, "sisk"); (0, 6, 1, 7, "sipk");
    (0, 6, 2, 7, "sidk"); (0, 6, 3, 7, "sifk"); (0, 6, 4, 7, "sigk"); (0, 6, 5, 7, "sihk");
    (0, 6, 6, 7, "siik"); (0, 6, 7, 0, "siks"); (0, 6, 7, 1, "sikp"); (0, 6, 7, 2, "sikd");
    (0, 6, 7, 3, "sikf"); (0, 6, 7, 4, "sikg"); (0, 6, 7, 5, "sikh"); (0, 6, 7, 6, "siki");
    (0, 6, 7, 7, "sikk"); (0, 7, 0, 0, "skss"); (0, 7, 0, 1, "sksp"); (0, 7, 0, 2, "sksd");
    (0, 7, 0, 3, "sksf"); (0, 7, 0, 4, "sksg"); (0, 7, 0, 5, "sksh"); (0, 7, 0, 6, "sksi");
    (0, 7, 0, 7, "sksk"); (0, 7, 1, 0, "skps"); (0, 7, 1, 1, "skpp"); (0, 7, 1, 2, "skpd");
    (0, 7, 1, 3, "skpf"); (0, 7, 1, 4, "skpg"); (0, 7, 1, 5, "skph"); (0, 7, 1, 6, "skpi");
    (0, 7, 1, 7, "skpk"); (0, 7, 2, 0, "skds"); (0, 7, 2, 1, "skdp"); (0, 7, 2, 2, "skdd");
    (0, 7, 2, 3, "skdf"); (0, 7, 2, 4, "skdg"); (0, 7, 2, 5, "skdh"); (0, 7, 2, 6, "skdi");
    (0, 7, 2, 7, "skdk"); (0, 7, 3, 0, "skfs"); (0, 7, 3, 1, "skfp"); (0, 7, 3, 2, "skfd");
    (0, 7, 3, 3, "skff"); (0, 7, 3, 4, "skfg"); (0, 7, 3, 5, "skfh"); (0, 7, 3, 6, "skfi");
    (0, 7, 3, 7, "skfk"); (0, 7, 4, 0, "skgs"); (0, 7, 4, 1, "skgp"); (0, 7, 4, 2, "skgd");
    (0, 7, 4, 3, "skgf"); (0, 7, 4, 4, "skgg"); (0, 7, 4, 5, "skgh"); (0, 7, 4, 6, "skgi");
    (0, 7, 4, 7, "skgk"); (0, 7, 5, 0, "skhs"); (0, 7, 5, 1, "skhp"); (0, 7, 5, 2, "skhd");
    (0, 7, 5, 3, "skhf"); (0, 7, 5, 4, "skhg"); (0, 7, 5, 5, "skhh"); (0, 7, 5, 6, "skhi");
    (0, 7, 5, 7, "skhk"); (0, 7, 6, 0, "skis"); (0, 7, 6, 1, "skip"); (0, 7, 6, 2, "skid");
    (0, 7, 6, 3, "skif"); (0, 7, 6, 4, "skig"); (0, 7, 6, 5, "skih"); (0, 7, 6, 6, "skii");
    (0, 7, 6, 7, "skik"); (0, 7, 7, 0, "skks"); (0, 7, 7, 1, "skkp"); (0, 7, 7, 2, "skkd");
    (0, 7, 7, 3, "skkf"); (0, 7, 7, 4, "skkg"); (0, 7, 7, 5, "skkh"); (0, 7, 7, 6, "skki");
    (0, 7, 7, 7, "skkk"); (1, 0, 0, 7, "pssk"); (1, 0, 1, 7, "pspk"); (1, 0, 2, 7, "psdk");
    (1, 0, 3, 7, "psfk"); (1, 0, 4, 7, "psgk"); (1, 0, 5, 7, "pshk"); (1, 0, 6, 7, "psik");
    (1, 0, 7, 0, "psks"); (1, 0, 7, 1, "pskp"); (1, 0, 7, 2, "pskd"); (1, 0, 7, 3, "pskf");
    (1, 0, 7, 4, "pskg"); (1, 0, 7, 5, "pskh"); (1, 0, 7, 6, "pski"); (1, 0, 7, 7, "pskk");
    (1, 1, 0, 7, "ppsk"); (1, 1, 1, 7, "pppk"); (1, 1, 2, 7, "ppdk"); (1, 1, 3, 7, "ppfk");
    (1, 1, 4, 7, "ppgk"); (1, 1, 5, 7, "pphk"); (1, 1, 6, 7, "ppik"); (1, 1, 7, 0, "ppks");
    (1, 1, 7, 1, "ppkp"); (1, 1, 7, 2, "ppkd"); (1, 1, 7, 3, "ppkf"); (1, 1, 7, 4, "ppkg");
    (1, 1, 7, 5, "ppkh"); (1, 1, 7, 6, "ppki"); (1, 1, 7, 7, "ppkk"); (1, 2, 0, 7, "pdsk");
    (1, 2, 1, 7, "pdpk"); (1, 2, 2, 7, "pddk"); (1, 2, 3, 7, "pdfk"); (1, 2, 4, 7, "pdgk");
    (1, 2, 5, 7, "pdhk"); (1, 2, 6, 7, "pdik"); (1, 2, 7, 0, "pdks"); (1, 2, 7, 1, "pdkp");
    (1, 2, 7, 2, "pdkd"); (1, 2, 7, 3, "pdkf"); (1, 2, 7, 4, "pdkg"); (1, 2, 7, 5, "pdkh");
    (1, 2, 7, 6, "pdki"); (1, 2, 7, 7, "pdkk"); (1, 3, 0, 7, "pfsk"); (1, 3, 1, 7, "pfpk");
    (1, 3, 2, 7, "pfdk"); (1, 3, 3, 7, "pffk"); (1, 3, 4, 7, "pfgk"); (1, 3, 5, 7, "pfhk");
    (1, 3, 6, 7, "pfik"); (1, 3, 7, 0, "pfks"); (1, 3, 7, 1, "pfkp"); (1, 3, 7, 2, "pfkd");
    (1, 3, 7, 3, "pfkf"); (1, 3, 7, 4, "pfkg"); (1, 3, 7, 5, "pfkh"); (1, 3, 7, 6, "pfki");
    (1, 3, 7, 7, "pfkk"); (1, 4, 0, 7, "pgsk"); (1, 4, 1, 7, "pgpk"); (1, 4, 2, 7, "pgdk");
    (1, 4, 3, 7, "pgfk"); (1, 4, 4, 7, "pggk"); (1, 4, 5, 7, "pghk"); (1, 4, 6, 7, "pgik");
    (1, 4, 7, 0, "pgks"); (1, 4, 7, 1, "pgkp"); (1, 4, 7, 2, "pgkd"); (1, 4, 7, 3, "pgkf");
    (1, 4, 7, 4, "pgkg"); (1, 4, 7, 5, "pgkh"); (1, 4, 7, 6, "pgki"); (1, 4, 7, 7, "pgkk");
    (1, 5, 0, 7, "phsk"); (1, 5, 1, 7, "phpk"); (1, 5, 2, 7, "phdk"); (1, 5, 3, 7, "phfk");
    (1, 5, 4, 7, "phgk"); (1, 5, 5, 7, "phhk"); (1, 5, 6, 7, "phik"); (1, 5, 7, 0, "phks");
    (1, 5, 7, 1, "phkp"); (1, 5, 7, 2, "phkd"); (1, 5, 7, 3, "phkf"); (1, 5, 7, 4, "phkg");
    (1, 5, 7, 5, "phkh"); (1, 5, 7, 6, "phki"); (1, 5, 7, 7, "phkk"); (1, 6, 0, 7, "pisk");
    (1, 6, 1, 7, "pipk"); (1, 6, 2, 7, "pidk"); (1, 6, 3, 7, "pifk"); (1, 6, 4, 7, "pigk");
    (1, 6, 5, 7, "pihk"); (1, 6, 6, 7, "piik"); (1, 6, 7, 0, "piks"); (1, 6, 7, 1, "pikp");
    (1, 6, 7, 2, "pikd"); (1, 6, 7, 3, "pikf"); (1, 6, 7, 4, "pikg"); (1, 6, 7, 5, "pikh");
    (1, 6, 7, 6, "piki"); (1, 6, 7, 7, "pikk"); (1, 7, 0, 0, "pkss"); (1, 7, 0, 1, "pksp");
    (1, 7, 0, 2, "pksd"); (1, 7, 0, 3, "pksf"); (1, 7, 0, 4, "pksg"); (1, 7, 0, 5, "pksh");
    (1, 7, 0, 6, "pksi"); (1, 7, 0, 7, "pksk"); (1, 7, 1, 0, "pkps"); (1, 7, 1, 1, "pkpp");
    (1, 7, 1, 2, "pkpd"); (1, 7, 1, 3, "pkpf"); (1, 7, 1, 4, "pkpg"); (1, 7, 1, 5, "pkph");
    (1, 7, 1, 6, "pkpi"); (1, 7, 1, 7, "pkpk"); (1, 7, 2, 0, "pkds"); (1, 7, 2, 1, "pkdp");
    (1, 7, 2, 2, "pkdd"); (1, 7, 2, 3, "pkdf"); (1, 7, 2, 4, "pkdg"); (1, 7, 2, 5, "pkdh");
    (1, 7, 2, 6, "pkdi"); (1, 7, 2, 7, "pkdk"); (1, 7, 3, 0, "pkfs"); (1, 7, 3, 1, "pkfp");
    (1, 7, 3, 2, "pkfd"); (1, 7, 3, 3, "pkff"); (1, 7, 3, 4, "pkfg"); (1, 7, 3, 5, "pkfh");
    (1, 7, 3, 6, "pkfi"); (1, 7, 3, 7, "pkfk"); (1, 7, 4, 0, "pkgs"); (1, 7, 4, 1, "pkgp");
    (1, 7, 4, 2, "pkgd"); (1, 7, 4, 3, "pkgf"); (1, 7, 4, 4, "pkgg"); (1, 7, 4, 5, "pkgh");
    (1, 7, 4, 6, "pkgi"); (1, 7, 4, 7, "pkgk"); (1, 7, 5, 0, "pkhs"); (1, 7, 5, 1, "pkhp");
    (1, 7, 5, 2, "pkhd"); (1, 7, 5, 3, "pkhf"); (1, 7, 5, 4, "pkhg"); (1, 7, 5, 5, "pkhh");
    (1, 7, 5, 6, "pkhi"); (1, 7, 5, 7, "pkhk"); (1, 7, 6, 0, "pkis"); (1, 7, 6, 1, "pkip");
    (1, 7, 6, 2, "pkid"); (1, 7, 6, 3, "pkif"); (1, 7, 6, 4, "pkig"); (1, 7, 6, 5, "pkih");
    (1, 7, 6, 6, "pkii"); (1, 7, 6, 7, "pkik"); (1, 7, 7, 0, "pkks"); (1, 7, 7, 1, "pkkp");
    (1, 7, 7, 2, "pkkd"); (1, 7, 7, 3, "pkkf"); (1, 7, 7, 4, "pkkg"); (1, 7, 7, 5, "pkkh");
    (1, 7, 7, 6, "pkki"); (1, 7, 7, 7, "pkkk"); (2, 0, 0, 7, "dssk"); (2, 0, 1, 7, "dspk");
    (2, 0, 2, 7, "dsdk"); (2, 0, 3, 7, "dsfk"); (2, 0, 4, 7, "dsgk"); (2, 0, 5, 7, "dshk");
    (2, 0, 6, 7, "dsik"); (2, 0, 7, 0, "dsks"); (2, 0, 7, 1, "dskp"); (2, 0, 7, 2, "dskd");
    (2, 0, 7, 3, "dskf"); (2, 0, 7, 4, "dskg"); (2, 0, 7, 5, "dskh"); (2, 0, 7, 6, "dski");
    (2, 0, 7, 7, "dskk"); (2, 1, 0, 7, "dpsk"); (2, 1, 1, 7, "dppk"); (2, 1, 2, 7, "dpdk");
    (2, 1, 3, 7, "dpfk"); (2, 1, 4, 7, "dpgk"); (2, 1, 5, 7, "dphk"); (2, 1, 6, 7, "dpik");
    (2, 1, 7, 0, "dpks"); (2, 1, 7, 1, "dpkp"); (2, 1, 7, 2, "dpkd"); (2, 1, 7, 3, "dpkf");
    (2, 1, 7, 4, "dpkg"); (2, 1, 7, 5, "dpkh"); (2, 1, 7, 6, "dpki"); (2, 1, 7, 7, "dpkk");
    (2, 2, 0, 7, "ddsk"); (2, 2, 1, 7, "ddpk"); (2, 2, 2, 7, "dddk"); (2, 2, 3, 7, "ddfk");
    (2, 2, 4, 7, "ddgk"); (2, 2, 5, 7, "ddhk"); (2, 2, 6, 7, "ddik"); (2, 2, 7, 0, "ddks");
    (2, 2, 7, 1, "ddkp"); (2, 2, 7, 2, "ddkd"); (2, 2, 7, 3, "ddkf"); (2, 2, 7, 4, "ddkg");
    (2, 2, 7, 5, "ddkh"); (2, 2, 7, 6, "ddki"); (2, 2, 7, 7, "ddkk"); (2, 3, 0, 7, "dfsk");
    (2, 3, 1, 7, "dfpk"); (2, 3, 2, 7, "dfdk"); (2, 3, 3, 7, "dffk"); (2, 3, 4, 7, "dfgk");
    (2, 3, 5, 7, "dfhk"); (2, 3, 6, 7, "dfik"); (2, 3, 7, 0, "dfks"); (2, 3, 7, 1, "dfkp");
    (2, 3, 7, 2, "dfkd"); (2, 3, 7, 3, "dfkf"); (2, 3, 7, 4, "dfkg"); (2, 3, 7, 5, "dfkh");
    (2, 3, 7, 6, "dfki"); (2, 3, 7, 7, "dfkk"); (2, 4, 0, 7, "dgsk"); (2, 4, 1, 7, "dgpk");
    (2, 4, 2, 7, "dgdk"); (2, 4, 3, 7, "dgfk"); (2, 4, 4, 7, "dggk"); (2, 4, 5, 7, "dghk");
    (2, 4, 6, 7, "dgik"); (2, 4, 7, 0, "dgks"); (2, 4, 7, 1, "dgkp"); (2, 4, 7, 2, "dgkd");
    (2, 4, 7, 3, "dgkf"); (2, 4, 7, 4, "dgkg"); (2, 4, 7, 5, "dgkh"); (2, 4, 7, 6, "dgki");
    (2, 4, 7, 7, "dgkk"); (2, 5, 0, 7, "dhsk"); (2, 5, 1, 7, "dhpk"); (2, 5, 2, 7, "dhdk");
    (2, 5, 3, 7, "dhfk"); (2, 5, 4, 7, "dhgk"); (2, 5, 5, 7, "dhhk"); (2, 5, 6, 7, "dhik");
    (2, 5, 7, 0, "dhks"); (2, 5, 7, 1, "dhkp"); (2, 5, 7, 2, "dhkd"); (2, 5, 7, 3, "dhkf");
    (2, 5, 7, 4, "dhkg"); (2, 5, 7, 5, "dhkh"); (2, 5, 7, 6, "dhki"); (2, 5, 7, 7, "dhkk");
    (2, 6, 0, 7, "disk"); (2, 6, 1, 7, "dipk"); (2, 6, 2, 7, "didk"); (2, 6, 3, 7, "difk");
    (2, 6, 4, 7, "digk"); (2, 6, 5, 7, "dihk"); (2, 6, 6, 7, "diik"); (2, 6, 7, 0, "diks");
    (2, 6, 7, 1, "dikp"); (2, 6, 7, 2, "dikd"); (2, 6, 7, 3, "dikf"); (2, 6, 7, 4, "dikg");
    (2, 6, 7, 5, "dikh"); (2, 6, 7, 6, "diki"); (2, 6, 7, 7, "dikk"); (2, 7, 0, 0, "dkss");
    (2, 7, 0, 1, "dksp"); (2, 7, 0, 2, "dksd"); (2, 7, 0, 3, "dksf"); (2, 7, 0, 4, "dksg");
    (2, 7, 0, 5, "dksh"); (2, 7, 0, 6, "dksi"); (2, 7, 0, 7, "dksk"); (2, 7, 1, 0, "dkps");
    (2, 7, 1, 1, "dkpp"); (2, 7, 1, 2, "dkpd"); (2, 7, 1, 3, "dkpf"); (2, 7, 1, 4, "dkpg");
    (2, 7, 1, 5, "dkph"); (2, 7, 1, 6, "dkpi"); (2, 7, 1, 7, "dkpk"); (2, 7, 2, 0, "dkds");
    (2, 7, 2, 1, "dkdp"); (2, 7, 2, 2, "dkdd"); (2, 7, 2, 3, "dkdf"); (2, 7, 2, 4, "dkdg");
    (2, 7, 2, 5, "dkdh"); (2, 7, 2, 6, "dkdi"); (2, 7, 2, 7, "dkdk"); (2, 7, 3, 0, "dkfs");
    (2, 7, 3, 1, "dkfp"); (2, 7, 3, 2, "dkfd"); (2, 7, 3, 3, "dkff"); (2, 7, 3, 4, "dkfg");
    (2, 7, 3, 5, "dkfh"); (2, 7, 3, 6, "dkfi"); (2, 7, 3, 7, "dkfk"); (2, 7, 4, 0, "dkgs");
    (2, 7, 4, 1, "dkgp"); (2, 7, 4, 2, "dkgd"); (2, 7, 4, 3, "dkgf"); (2, 7, 4, 4, "dkgg");
    (2, 7, 4, 5, "dkgh"); (2, 7, 4, 6, "dkgi"); (2, 7, 4, 7, "dkgk"); (2, 7, 5, 0, "dkhs");
    (2, 7, 5, 1, "dkhp"); (2, 7, 5, 2, "dkhd"); (2, 7, 5, 3, "dkhf"); (2, 7, 5, 4, "dkhg");
    (2, 7, 5, 5, "dkhh"); (2, 7, 5, 6, "dkhi"); (2, 7, 5, 7, "dkhk"); (2, 7, 6, 0, "dkis");
    (2, 7, 6, 1, "dkip"); (2, 7, 6, 2, "dkid"); (2, 7, 6, 3, "dkif"); (2, 7, 6, 4, "dkig");
    (2, 7, 6, 5, "dkih"); (2, 7, 6, 6, "dkii"); (2, 7, 6, 7, "dkik"); (2, 7, 7, 0, "dkks");
    (2, 7, 7, 1, "dkkp"); (2, 7, 7, 2, "dkkd"); (2, 7, 7, 3, "dkkf"); (2, 7, 7, 4, "dkkg");
    (2, 7, 7, 5, "dkkh"); (2, 7, 7, 6, "dkki"); (2, 7, 7, 7, "dkkk"); (3, 0, 0, 7, "fssk");
    (3, 0, 1, 7, "fspk"); (3, 0, 2, 7, "fsdk"); (3, 0, 3, 7, "fsfk"); (3, 0, 4, 7, "fsgk");
    (3, 0, 5, 7, "fshk"); (3, 0, 6, 7, "fsik"); (3, 0, 7, 0, "fsks"); (3, 0, 7, 1, "fskp");
    (3, 0, 7, 2, "fskd"); (3, 0, 7, 3, "fskf"); (3, 0, 7, 4, "fskg"); (3, 0, 7, 5, "fskh");
    (3, 0, 7, 6, "fski"); (3, 0, 7, 7, "fskk"); (3, 1, 0, 7, "fpsk"); (3, 1, 1, 7, "fppk");
    (3, 1, 2, 7, "fpdk"); (3, 1, 3, 7, "fpfk"); (3, 1, 4, 7, "fpgk"); (3, 1, 5, 7, "fphk");
    (3, 1, 6, 7, "fpik"); (3, 1, 7, 0, "fpks"); (3, 1, 7, 1, "fpkp"); (3, 1, 7, 2, "fpkd");
    (3, 1, 7, 3, "fpkf"); (3, 1, 7, 4, "fpkg"); (3, 1, 7, 5, "fpkh"); (3, 1, 7, 6, "fpki");
    (3, 1, 7, 7, "fpkk"); (3, 2, 0, 7, "fdsk"); (3, 2, 1, 7, "fdpk"); (3, 2, 2, 7, "fddk");
    (3, 2, 3, 7, "fdfk"); (3, 2, 4, 7, "fdgk"); (3, 2, 5, 7, "fdhk"); (3, 2, 6, 7, "fdik");
    (3, 2, 7, 0, "fdks"); (3, 2, 7, 1, "fdkp"); (3, 2, 7, 2, "fdkd"); (3, 2, 7, 3, "fdkf");
    (3, 2, 7, 4, "fdkg"); (3, 2, 7, 5, "fdkh"); (3, 2, 7, 6, "fdki"); (3, 2, 7, 7, "fdkk");
    (3, 3, 0, 7, "ffsk"); (3, 3, 1, 7, "ffpk"); (3, 3, 2, 7, "ffdk"); (3, 3, 3, 7, "fffk");
    (3, 3, 4, 7, "ffgk"); (3, 3, 5, 7, "ffhk"); (3, 3, 6, 7, "ffik"); (3, 3, 7, 0, "ffks");
    (3, 3, 7, 1, "ffkp"); (3, 3, 7, 2, "ffkd"); (3, 3, 7, 3, "ffkf"); (3, 3, 7, 4, "ffkg");
    (3, 3, 7, 5, "ffkh"); (3, 3, 7, 6, "ffki"); (3, 3, 7, 7, "ffkk"); (3, 4, 0, 7, "fgsk");
    (3, 4, 1, 7, "fgpk"); (3, 4, 2, 7, "fgdk"); (3, 4, 3, 7, "fgfk"); (3, 4, 4, 7, "fggk");
    (3, 4, 5, 7, "fghk"); (3, 4, 6, 7, "fgik"); (3, 4, 7, 0, "fgks"); (3, 4, 7, 1, "fgkp");
    (3, 4, 7, 2, "fgkd"); (3, 4, 7, 3, "fgkf"); (3, 4, 7, 4, "fgkg"); (3, 4, 7, 5, "fgkh");
    (3, 4, 7, 6, "fgki"); (3, 4, 7, 7, "fgkk"); (3, 5, 0, 7, "fhsk"); (3, 5, 1, 7, "fhpk");
    (3, 5, 2, 7, "fhdk"); (3, 5, 3, 7, "fhfk"); (3, 5, 4, 7, "fhgk"); (3, 5, 5, 7, "fhhk");
    (3, 5, 6, 7, "fhik"); (3, 5, 7, 0, "fhks"); (3, 5, 7, 1, "fhkp"); (3, 5, 7, 2, "fhkd");
    (3, 5, 7, 3, "fhkf"); (3, 5, 7, 4, "fhkg"); (3, 5, 7, 5, "fhkh"); (3, 5, 7, 6, "fhki");
    (3, 5, 7, 7, "fhkk"); (3, 6, 0, 7, "fisk"); (3, 6, 1, 7, "fipk"); (3, 6, 2, 7, "fidk");
    (3, 6, 3, 7, "fifk"); (3, 6, 4, 7, "figk"); (3, 6, 5, 7, "fihk"); (3, 6, 6, 7, "fiik");
    (3, 6, 7, 0, "fiks"); (3, 6, 7, 1, "fikp"); (3, 6, 7, 2, "fikd"); (3, 6, 7, 3, "fikf");
    (3, 6, 7, 4, "fikg"); (3, 6, 7, 5, "fikh"); (3, 6, 7, 6, "fiki"); (3, 6, 7, 7, "fikk");
    (3, 7, 0, 0, "fkss"); (3, 7, 0, 1, "fksp"); (3, 7, 0, 2, "fksd"); (3, 7, 0, 3, "fksf");
    (3, 7, 0, 4, "fksg"); (3, 7, 0, 5, "fksh"); (3, 7, 0, 6, "fksi"); (3, 7, 0, 7, "fksk");
    (3, 7, 1, 0, "fkps"); (3, 7, 1, 1, "fkpp"); (3, 7, 1, 2, "fkpd"); (3, 7, 1, 3, "fkpf");
    (3, 7, 1, 4, "fkpg"); (3, 7, 1, 5, "fkph"); (3, 7, 1, 6, "fkpi"); (3, 7, 1, 7, "fkpk");
    (3, 7, 2, 0, "fkds"); (3, 7, 2, 1, "fkdp"); (3, 7, 2, 2, "fkdd"); (3, 7, 2, 3, "fkdf");
    (3, 7, 2, 4, "fkdg"); (3, 7, 2, 5, "fkdh"); (3, 7, 2, 6, "fkdi"); (3, 7, 2, 7, "fkdk");
    (3, 7, 3, 0, "fkfs"); (3, 7, 3, 1, "fkfp"); (3, 7, 3, 2, "fkfd"); (3, 7, 3, 3, "fkff");
    (3, 7, 3, 4, "fkfg"); (3, 7, 3, 5, "fkfh"); (3, 7, 3, 6, "fkfi"); (3, 7, 3, 7, "fkfk");
    (3, 7, 4, 0, "fkgs"); (3, 7, 4, 1, "fkgp"); (3, 7, 4, 2, "fkgd"); (3, 7, 4, 3, "fkgf");
    (3, 7, 4, 4, "fkgg"); (3, 7, 4, 5, "fkgh"); (3, 7, 4, 6, "fkgi"); (3, 7, 4, 7, "fkgk");
    (3, 7, 5, 0, "fkhs"); (3, 7, 5, 1, "fkhp"); (3, 7, 5, 2, "fkhd"); (3, 7, 5, 3, "fkhf");
    (3, 7, 5, 4, "fkhg"); (3, 7, 5, 5, "fkhh"); (3, 7, 5, 6, "fkhi"); (3, 7, 5, 7, "fkhk");
    (3, 7, 6, 0, "fkis"); (3, 7, 6, 1, "fkip"); (3, 7, 6, 2, "fkid"); (3, 7, 6, 3, "fkif");
    (3, 7, 6, 4, "fkig"); (3, 7, 6, 5, "fkih"); (3, 7, 6, 6, "fkii"); (3, 7, 6, 7, "fkik");
    (3, 7, 7, 0, "fkks"); (3, 7, 7, 1, "fkkp"); (3, 7, 7, 2, "fkkd"); (3, 7, 7, 3, "fkkf");
    (3, 7, 7, 4, "fkkg"); (3, 7, 7, 5, "fkkh"); (3, 7, 7, 6, "fkki"); (3, 7, 7, 7, "fkkk");
    (4, 0, 0, 7, "gssk"); (4, 0, 1, 7, "gspk"); (4, 0, 2, 7, "gsdk"); (4, 0, 3, 7, "gsfk");
    (4, 0, 4, 7, "gsgk"); (4, 0, 5, 7, "gshk"); (4, 0, 6, 7, "gsik"); (4, 0, 7, 0, "gsks");
    (4, 0, 7, 1, "gskp"); (4, 0, 7, 2, "gskd"); (4, 0, 7, 3, "gskf"); (4, 0, 7, 4, "gskg");
    (4, 0, 7, 5, "gskh"); (4, 0, 7, 6, "gski"); (4, 0, 7, 7, "gskk"); (4, 1, 0, 7, "gpsk");
    (4, 1, 1, 7, "gppk"); (4, 1, 2, 7, "gpdk"); (4, 1, 3, 7, "gpfk"); (4, 1, 4, 7, "gpgk");
    (4, 1, 5, 7, "gphk"); (4, 1, 6, 7, "gpik"); (4, 1, 7, 0, "gpks"); (4, 1, 7, 1, "gpkp");
    (4, 1, 7, 2, "gpkd"); (4, 1, 7, 3, "gpkf"); (4, 1, 7, 4, "gpkg"); (4, 1, 7, 5, "gpkh");
    (4, 1, 7, 6, "gpki"); (4, 1, 7, 7, "gpkk"); (4, 2, 0, 7, "gdsk"); (4, 2, 1, 7, "gdpk");
    (4, 2, 2, 7, "gddk"); (4, 2, 3, 7, "gdfk"); (4, 2, 4, 7, "gdgk"); (4, 2, 5, 7, "gdhk");
    (4, 2, 6, 7, "gdik"); (4, 2, 7, 0, "gdks"); (4, 2, 7, 1, "gdkp"); (4, 2, 7, 2, "gdkd");
    (4, 2, 7, 3, "gdkf"); (4, 2, 7, 4, "gdkg"); (4, 2, 7, 5, "gdkh"); (4, 2, 7, 6, "gdki");
    (4, 2, 7, 7, "gdkk"); (4, 3, 0, 7, "gfsk"); (4, 3, 1, 7, "gfpk"); (4, 3, 2, 7, "gfdk");
    (4, 3, 3, 7, "gffk"); (4, 3, 4, 7, "gfgk"); (4, 3, 5, 7, "gfhk"); (4, 3, 6, 7, "gfik");
    (4, 3, 7, 0, "gfks"); (4, 3, 7, 1, "gfkp"); (4, 3, 7, 2, "gfkd"); (4, 3, 7, 3, "gfkf");
    (4, 3, 7, 4, "gfkg"); (4, 3, 7, 5, "gfkh"); (4, 3, 7, 6, "gfki"); (4, 3, 7, 7, "gfkk");
    (4, 4, 0, 7, "ggsk"); (4, 4, 1, 7, "ggpk"); (4, 4, 2, 7, "ggdk"); (4, 4, 3, 7, "ggfk");
    (4, 4, 4, 7, "gggk"); (4, 4, 5, 7, "gghk"); (4, 4, 6, 7, "ggik"); (4, 4, 7, 0, "ggks");
    (4, 4, 7, 1, "ggkp"); (4, 4, 7, 2, "ggkd"); (4, 4, 7, 3, "ggkf"); (4, 4, 7, 4, "ggkg");
    (4, 4, 7, 5, "ggkh"); (4, 4, 7, 6, "ggki"); (4, 4, 7, 7, "ggkk"); (4, 5, 0, 7, "ghsk");
    (4, 5, 1, 7, "ghpk"); (4, 5, 2, 7, "ghdk"); (4, 5, 3, 7, "ghfk"); (4, 5, 4, 7, "ghgk");
    (4, 5, 5, 7, "ghhk"); (4, 5, 6, 7, "ghik"); (4, 5, 7, 0, "ghks"); (4, 5, 7, 1, "ghkp");
    (4, 5, 7, 2, "ghkd"); (4, 5, 7, 3, "ghkf"); (4, 5, 7, 4, "ghkg"); (4, 5, 7, 5, "ghkh");
    (4, 5, 7, 6, "ghki"); (4, 5, 7, 7, "ghkk"); (4, 6, 0, 7, "gisk"); (4, 6, 1, 7, "gipk");
    (4, 6, 2, 7, "gidk"); (4, 6, 3, 7, "gifk"); (4, 6, 4, 7, "gigk"); (4, 6, 5, 7, "gihk");
    (4, 6, 6, 7, "giik"); (4, 6, 7, 0, "giks"); (4, 6, 7, 1, "gikp"); (4, 6, 7, 2, "gikd");
    (4, 6, 7, 3, "gikf"); (4, 6, 7, 4, "gikg"); (4, 6, 7, 5, "gikh"); (4, 6, 7, 6, "giki");
    (4, 6, 7, 7, "gikk"); (4, 7, 0, 0, "gkss"); (4, 7, 0, 1, "gksp"); (4, 7, 0, 2, "gksd");
    (4, 7, 0, 3, "gksf"); (4, 7, 0, 4, "gksg"); (4, 7, 0, 5, "gksh"); (4, 7, 0, 6, "gksi");
    (4, 7, 0, 7, "gksk"); (4, 7, 1, 0, "gkps"); (4, 7, 1, 1, "gkpp"); (4, 7, 1, 2, "gkpd");
    (4, 7, 1, 3, "gkpf"); (4, 7, 1, 4, "gkpg"); (4, 7, 1, 5, "gkph"); (4, 7, 1, 6, "gkpi");
    (4, 7, 1, 7, "gkpk"); (4, 7, 2, 0, "gkds"); (4, 7, 2, 1, "gkdp"); (4, 7, 2, 2, "gkdd");
    (4, 7, 2, 3, "gkdf"); (4, 7, 2, 4, "gkdg"); (4, 7, 2, 5, "gkdh"); (4, 7, 2, 6, "gkdi");
    (4, 7, 2, 7, "gkdk"); (4, 7, 3, 0, "gkfs"); (4, 7, 3, 1, "gkfp"); (4, 7, 3, 2, "gkfd");
    (4, 7, 3, 3, "gkff"); (4, 7, 3, 4, "gkfg"); (4, 7, 3, 5, "gkfh"); (4, 7, 3, 6, "gkfi");
    (4, 7, 3, 7, "gkfk"); (4, 7, 4, 0, "gkgs"); (4, 7, 4, 1, "gkgp"); (4, 7, 4, 2, "gkgd");
    (4, 7, 4, 3, "gkgf"); (4, 7, 4, 4, "gkgg"); (4, 7, 4, 5, "gkgh"); (4, 7, 4, 6, "gkgi");
    (4, 7, 4, 7, "gkgk"); (4, 7, 5, 0, "gkhs"); (4, 7, 5, 1, "gkhp"); (4, 7, 5, 2, "gkhd");
    (4, 7, 5, 3, "gkhf"); (4, 7, 5, 4, "gkhg"); (4, 7, 5, 5, "gkhh"); (4, 7, 5, 6, "gkhi");
    (4, 7, 5, 7, "gkhk"); (4, 7, 6, 0, "gkis"); (4, 7, 6, 1, "gkip"); (4, 7, 6, 2, "gkid");
    (4, 7, 6, 3, "gkif"); (4, 7, 6, 4, "gkig"); (4, 7, 6, 5, "gkih"); (4, 7, 6, 6, "gkii");
    (4, 7, 6, 7, "gkik"); (4, 7, 7, 0, "gkks"); (4, 7, 7, 1, "gkkp"); (4, 7, 7, 2, "gkkd");
    (4, 7, 7, 3, "gkkf"); (4, 7, 7, 4, "gkkg"); (4, 7, 7, 5, "gkkh"); (4, 7, 7, 6, "gkki");
    (4, 7, 7, 7, "gkkk"); (5, 0, 0, 7, "hssk"); (5, 0, 1, 7, "hspk"); (5, 0, 2, 7, "hsdk");
    (5, 0, 3, 7, "hsfk"); (5, 0, 4, 7, "hsgk"); (5, 0, 5, 7, "hshk"); (5, 0, 6, 7, "hsik");
    (5, 0, 7, 0, "hsks"); (5, 0, 7, 1, "hskp"); (5, 0, 7, 2, "hskd"); (5, 0, 7, 3, "hskf");
    (5, 0, 7, 4, "hskg"); (5, 0, 7, 5, "hskh"); (5, 0, 7, 6, "hski"); (5, 0, 7, 7, "hskk");
    (5, 1, 0, 7, "hpsk"); (5, 1, 1, 7, "hppk"); (5, 1, 2, 7, "hpdk"); (5, 1, 3, 7, "hpfk");
    (5, 1, 4, 7, "hpgk"); (5, 1, 5, 7, "hphk"); (5, 1, 6, 7, "hpik"); (5, 1, 7, 0, "hpks");
    (5, 1, 7, 1, "hpkp"); (5, 1, 7, 2, "hpkd"); (5, 1, 7, 3, "hpkf"); (5, 1, 7, 4, "hpkg");
    (5, 1, 7, 5, "hpkh"); (5, 1, 7, 6, "hpki"); (5, 1, 7, 7, "hpkk"); (5, 2, 0, 7, "hdsk");
    (5, 2, 1, 7, "hdpk"); (5, 2, 2, 7, "hddk"); (5, 2, 3, 7, "hdfk"); (5, 2, 4, 7, "hdgk");
    (5, 2, 5, 7, "hdhk"); (5, 2, 6, 7, "hdik"); (5, 2, 7, 0, "hdks"); (5, 2, 7, 1, "hdkp");
    (5, 2, 7, 2, "hdkd"); (5, 2, 7, 3, "hdkf"); (5, 2, 7, 4, "hdkg"); (5, 2, 7, 5, "hdkh");
    (5, 2, 7, 6, "hdki"); (5, 2, 7, 7, "hdkk"); (5, 3, 0, 7, "hfsk"); (5, 3, 1, 7, "hfpk");
    (5, 3, 2, 7, "hfdk"); (5, 3, 3, 7, "hffk"); (5, 3, 4, 7, "hfgk"); (5, 3, 5, 7, "hfhk");
    (5, 3, 6, 7, "hfik"); (5, 3, 7, 0, "hfks"); (5, 3, 7, 1, "hfkp"); (5, 3, 7, 2, "hfkd");
    (5, 3, 7, 3, "hfkf"); (5, 3, 7, 4, "hfkg"); (5, 3, 7, 5, "hfkh"); (5, 3, 7, 6, "hfki");
    (5, 3, 7, 7, "hfkk"); (5, 4, 0, 7, "hgsk"); (5, 4, 1, 7, "hgpk"); (5, 4, 2, 7, "hgdk");
    (5, 4, 3, 7, "hgfk"); (5, 4, 4, 7, "hggk"); (5, 4, 5, 7, "hghk"); (5, 4, 6, 7, "hgik");
    (5, 4, 7, 0, "hgks"); (5, 4, 7, 1, "hgkp"); (5, 4, 7, 2, "hgkd"); (5, 4, 7, 3, "hgkf");
    (5, 4, 7, 4, "hgkg"); (5, 4, 7, 5, "hgkh"); (5, 4, 7, 6, "hgki"); (5, 4, 7, 7, "hgkk");
    (5, 5, 0, 7, "hhsk"); (5, 5, 1, 7, "hhpk"); (5, 5, 2, 7, "hhdk"); (5, 5, 3, 7, "hhfk");
    (5, 5, 4, 7, "hhgk"); (5, 5, 5, 7, "hhhk"); (5, 5, 6, 7, "hhik"); (5, 5, 7, 0, "hhks");
    (5, 5, 7, 1, "hhkp"); (5, 5, 7, 2, "hhkd"); (5, 5, 7, 3, "hhkf"); (5, 5, 7, 4, "hhkg");
    (5, 5, 7, 5, "hhkh"); (5, 5, 7, 6, "hhki"); (5, 5, 7, 7, "hhkk"); (5, 6, 0, 7, "hisk");
    (5, 6, 1, 7, "hipk"); (5, 6, 2, 7, "hidk"); (5, 6, 3, 7, "hifk"); (5, 6, 4, 7, "higk");
    (5, 6, 5, 7, "hihk"); (5, 6, 6, 7, "hiik"); (5, 6, 7, 0, "hiks"); (5, 6, 7, 1, "hikp");
    (5, 6, 7, 2, "hikd"); (5, 6, 7, 3, "hikf"); (5, 6, 7, 4, "hikg"); (5, 6, 7, 5, "hikh");
    (5, 6, 7, 6, "hiki"); (5, 6, 7, 7, "hikk"); (5, 7, 0, 0, "hkss"); (5, 7, 0, 1, "hksp");
    (5, 7, 0, 2, "hksd"); (5, 7, 0, 3, "hksf"); (5, 7, 0, 4, "hksg"); (5, 7, 0, 5, "hksh");
    (5, 7, 0, 6, "hksi"); (5, 7, 0, 7, "hksk"); (5, 7, 1, 0, "hkps"); (5, 7, 1, 1, "hkpp");
    (5, 7, 1, 2, "hkpd"); (5, 7, 1, 3, "hkpf"); (5, 7, 1, 4, "hkpg"); (5, 7, 1, 5, "hkph");
    (5, 7, 1, 6, "hkpi"); (5, 7, 1, 7, "hkpk"); (5, 7, 2, 0, "hkds"); (5, 7, 2, 1, "hkdp");
    (5, 7, 2, 2, "hkdd"); (5, 7, 2, 3, "hkdf"); (5, 7, 2, 4, "hkdg"); (5, 7, 2, 5, "hkdh");
    (5, 7, 2, 6, "hkdi"); (5, 7, 2, 7, "hkdk"); (5, 7, 3, 0, "hkfs"); (5, 7, 3, 1, "hkfp");
    (5, 7, 3, 2, "hkfd"); (5, 7, 3, 3, "hkff"); (5, 7, 3, 4, "hkfg"); (5, 7, 3, 5, "hkfh");
    (5, 7, 3, 6, "hkfi"); (5, 7, 3, 7, "hkfk"); (5, 7, 4, 0, "hkgs"); (5, 7, 4, 1, "hkgp");
    (5, 7, 4, 2, "hkgd"); (5, 7, 4, 3, "hkgf"); (5, 7, 4, 4, "hkgg"); (5, 7, 4, 5, "hkgh");
    (5, 7, 4, 6, "hkgi"); (5, 7, 4, 7, "hkgk"); (5, 7, 5, 0, "hkhs"); (5, 7, 5, 1, "hkhp");
    (5, 7, 5, 2, "hkhd"); (5, 7, 5, 3, "hkhf"); (5, 7, 5, 4, "hkhg"); (5, 7, 5, 5, "hkhh");
    (5, 7, 5, 6, "hkhi"); (5, 7, 5, 7, "hkhk"); (5, 7, 6, 0, "hkis"); (5, 7, 6, 1, "hkip");
    (5, 7, 6, 2, "hkid"); (5, 7, 6, 3, "hkif"); (5, 7, 6, 4, "hkig"); (5, 7, 6, 5, "hkih");
    (5, 7, 6, 6, "hkii"); (5, 7, 6, 7, "hkik"); (5, 7, 7, 0, "hkks"); (5, 7, 7, 1, "hkkp");
    (5, 7, 7, 2, "hkkd"); (5, 7, 7, 3, "hkkf"); (5, 7, 7, 4, "hkkg"); (5, 7, 7, 5, "hkkh");
    (5, 7, 7, 6, "hkki"); (5, 7, 7, 7, "hkkk"); (6, 0, 0, 7, "issk"); (6, 0, 1, 7, "ispk");
    (6, 0, 2, 7, "isdk"); (6, 0, 3, 7, "isfk"); (6, 0, 4, 7, "isgk"); (6, 0, 5, 7, "ishk");
    (6, 0, 6, 7, "isik"); (6, 0, 7, 0, "isks"); (6, 0, 7, 1, "iskp"); (6, 0, 7, 2, "iskd");
    (6, 0, 7, 3, "iskf"); (6, 0, 7, 4, "iskg"); (6, 0, 7, 5, "iskh"); (6, 0, 7, 6, "iski");
    (6, 0, 7, 7, "iskk"); (6, 1, 0, 7, "ipsk"); (6, 1, 1, 7, "ippk"); (6, 1, 2, 7, "ipdk");
    (6, 1, 3, 7, "ipfk"); (6, 1, 4, 7, "ipgk"); (6, 1, 5, 7, "iphk"); (6, 1, 6, 7, "ipik");
    (6, 1, 7, 0, "ipks"); (6, 1, 7, 1, "ipkp"); (6, 1, 7, 2, "ipkd"); (6, 1, 7, 3, "ipkf");
    (6, 1, 7, 4, "ipkg"); (6, 1, 7, 5, "ipkh"); (6, 1, 7, 6, "ipki"); (6, 1, 7, 7, "ipkk");
    (6, 2, 0, 7, "idsk"); (6, 2, 1, 7, "idpk"); (6, 2, 2, 7, "iddk"); (6, 2, 3, 7, "idfk");
    (6, 2, 4, 7, "idgk"); (6, 2, 5, 7, "idhk"); (6, 2, 6, 7, "idik"); (6, 2, 7, 0, "idks");
    (6, 2, 7, 1, "idkp"); (6, 2, 7, 2, "idkd"); (6, 2, 7, 3, "idkf"); (6, 2, 7, 4, "idkg");
    (6, 2, 7, 5, "idkh"); (6, 2, 7, 6, "idki"); (6, 2, 7, 7, "idkk"); (6, 3, 0, 7, "ifsk");
    (6, 3, 1, 7, "ifpk"); (6, 3, 2, 7, "ifdk"); (6, 3, 3, 7, "iffk"); (6, 3, 4, 7, "ifgk");
    (6, 3, 5, 7, "ifhk"); (6, 3, 6, 7, "ifik"); (6, 3, 7, 0, "ifks"); (6, 3, 7, 1, "ifkp");
    (6, 3, 7, 2, "ifkd"); (6, 3, 7, 3, "ifkf"); (6, 3, 7, 4, "ifkg"); (6, 3, 7, 5, "ifkh");
    (6, 3, 7, 6, "ifki"); (6, 3, 7, 7, "ifkk"); (6, 4, 0, 7, "igsk"); (6, 4, 1, 7, "igpk");
    (6, 4, 2, 7, "igdk"); (6, 4, 3, 7, "igfk"); (6, 4, 4, 7, "iggk"); (6, 4, 5, 7, "ighk");
    (6, 4, 6, 7, "igik"); (6, 4, 7, 0, "igks"); (6, 4, 7, 1, "igkp"); (6, 4, 7, 2, "igkd");
    (6, 4, 7, 3, "igkf"); (6, 4, 7, 4, "igkg"); (6, 4, 7, 5, "igkh"); (6, 4, 7, 6, "igki");
    (6, 4, 7, 7, "igkk"); (6, 5, 0, 7, "ihsk"); (6, 5, 1, 7, "ihpk"); (6, 5, 2, 7, "ihdk");
    (6, 5, 3, 7, "ihfk"); (6, 5, 4, 7, "ihgk"); (6, 5, 5, 7, "ihhk"); (6, 5, 6, 7, "ihik");
    (6, 5, 7, 0, "ihks"); (6, 5, 7, 1, "ihkp"); (6, 5, 7, 2, "ihkd"); (6, 5, 7, 3, "ihkf");
    (6, 5, 7, 4, "ihkg"); (6, 5, 7, 5, "ihkh"); (6, 5, 7, 6, "ihki"); (6, 5, 7, 7, "ihkk");
    (6, 6, 0, 7, "iisk"); (6, 6, 1, 7, "iipk"); (6, 6, 2, 7, "iidk"); (6, 6, 3, 7, "iifk");
    (6, 6, 4, 7, "iigk"); (6, 6, 5, 7, "iihk"); (6, 6, 6, 7, "iiik"); (6, 6, 7, 0, "iiks");
    (6, 6, 7, 1, "iikp"); (6, 6, 7, 2, "iikd"); (6, 6, 7, 3, "iikf"); (6, 6, 7, 4, "iikg");
    (6, 6, 7, 5, "iikh"); (6, 6, 7, 6, "iiki"); (6, 6, 7, 7, "iikk"); (6, 7, 0, 0, "ikss");
    (6, 7, 0, 1, "iksp"); (6, 7, 0, 2, "iksd"); (6, 7, 0, 3, "iksf"); (6, 7, 0, 4, "iksg");
    (6, 7, 0, 5, "iksh"); (6, 7, 0, 6, "iksi"); (6, 7, 0, 7, "iksk"); (6, 7, 1, 0, "ikps");
    (6, 7, 1, 1, "ikpp"); (6, 7, 1, 2, "ikpd"); (6, 7, 1, 3, "ikpf"); (6, 7, 1, 4, "ikpg");
    (6, 7, 1, 5, "ikph"); (6, 7, 1, 6, "ikpi"); (6, 7, 1, 7, "ikpk"); (6, 7, 2, 0, "ikds");
    (6, 7, 2, 1, "ikdp"); (6, 7, 2, 2, "ikdd"); (6, 7, 2, 3, "ikdf"); (6, 7, 2, 4, "ikdg");
    (6, 7, 2, 5, "ikdh"); (6, 7, 2, 6, "ikdi"); (6, 7, 2, 7, "ikdk"); (6, 7, 3, 0, "ikfs");
    (6, 7, 3, 1, "ikfp"); (6, 7, 3, 2, "ikfd"); (6, 7, 3, 3, "ikff"); (6, 7, 3, 4, "ikfg");
    (6, 7, 3, 5, "ikfh"); (6, 7, 3, 6, "ikfi"); (6, 7, 3, 7, "ikfk"); (6, 7, 4, 0, "ikgs");
    (6, 7, 4, 1, "ikgp"); (6, 7, 4, 2, "ikgd"); (6, 7, 4, 3, "ikgf"); (6, 7, 4, 4, "ikgg");
    (6, 7, 4, 5, "ikgh"); (6, 7, 4, 6, "ikgi"); (6, 7, 4, 7, "ikgk"); (6, 7, 5, 0, "ikhs");
    (6, 7, 5, 1, "ikhp"); (6, 7, 5, 2, "ikhd"); (6, 7, 5, 3, "ikhf"); (6, 7, 5, 4, "ikhg");
    (6, 7, 5, 5, "ikhh"); (6, 7, 5, 6, "ikhi"); (6, 7, 5, 7, "ikhk"); (6, 7, 6, 0, "ikis");
    (6, 7, 6, 1, "ikip"); (6, 7, 6, 2, "ikid"); (6, 7, 6, 3, "ikif"); (6, 7, 6, 4, "ikig");
    (6, 7, 6, 5, "ikih"); (6, 7, 6, 6, "ikii"); (6, 7, 6, 7, "ikik"); (6, 7, 7, 0, "ikks");
    (6, 7, 7, 1, "ikkp"); (6, 7, 7, 2, "ikkd"); (6, 7, 7, 3, "ikkf"); (6, 7, 7, 4, "ikkg");
    (6, 7, 7, 5, "ikkh"); (6, 7, 7, 6, "ikki"); (6, 7, 7, 7, "ikkk"); (7, 0, 0, 0, "ksss");
    (7, 0, 0, 1, "kssp"); (7, 0, 0, 2, "kssd"); (7, 0, 0, 3, "kssf"); (7, 0, 0, 4, "kssg");
    (7, 0, 0, 5, "kssh"); (7, 0, 0, 6, "kssi"); (7, 0, 0, 7, "kssk"); (7, 0, 1, 0, "ksps");
    (7, 0, 1, 1, "kspp"); (7, 0, 1, 2, "kspd"); (7, 0, 1, 3, "kspf"); (7, 0, 1, 4, "kspg");
    (7, 0, 1, 5, "ksph"); (7, 0, 1, 6, "kspi"); (7, 0, 1, 7, "kspk"); (7, 0, 2, 0, "ksds");
    (7, 0, 2, 1, "ksdp"); (7, 0, 2, 2, "ksdd"); (7, 0, 2, 3, "ksdf"); (7, 0, 2, 4, "ksdg");
    (7, 0, 2, 5, "ksdh"); (7, 0, 2, 6, "ksdi"); (7, 0, 2, 7, "ksdk"); (7, 0, 3, 0, "ksfs");
    (7, 0, 3, 1, "ksfp"); (7, 0, 3, 2, "ksfd"); (7, 0, 3, 3, "ksff"); (7, 0, 3, 4, "ksfg");
    (7, 0, 3, 5, "ksfh"); (7, 0, 3, 6, "ksfi"); (7, 0, 3, 7, "ksfk"); (7, 0, 4, 0, "ksgs");
    (7, 0, 4, 1, "ksgp"); (7, 0, 4, 2, "ksgd"); (7, 0, 4, 3, "ksgf"); (7, 0, 4, 4, "ksgg");
    (7, 0, 4, 5, "ksgh"); (7, 0, 4, 6, "ksgi"); (7, 0, 4, 7, "ksgk"); (7, 0, 5, 0, "kshs");
    (7, 0, 5, 1, "kshp"); (7, 0, 5, 2, "kshd"); (7, 0, 5, 3, "kshf"); (7, 0, 5, 4, "kshg");
    (7, 0, 5, 5, "kshh"); (7, 0, 5, 6, "kshi"); (7, 0, 5, 7, "kshk"); (7, 0, 6, 0, "ksis");
    (7, 0, 6, 1, "ksip"); (7, 0, 6, 2, "ksid"); (7, 0, 6, 3, "ksif"); (7, 0, 6, 4, "ksig");
    (7, 0, 6, 5, "ksih"); (7, 0, 6, 6, "ksii"); (7, 0, 6, 7, "ksik"); (7, 0, 7, 0, "ksks");
    (7, 0, 7, 1, "kskp"); (7, 0, 7, 2, "kskd"); (7, 0, 7, 3, "kskf"); (7, 0, 7, 4, "kskg");
    (7, 0, 7, 5, "kskh"); (7, 0, 7, 6, "kski"); (7, 0, 7, 7, "kskk"); (7, 1, 0, 0, "kpss");
    (7, 1, 0, 1, "kpsp"); (7, 1, 0, 2, "kpsd"); (7, 1, 0, 3, "kpsf"); (7, 1, 0, 4, "kpsg");
    (7, 1, 0, 5, "kpsh"); (7, 1, 0, 6, "kpsi"); (7, 1, 0, 7, "kpsk"); (7, 1, 1, 0, "kpps");
    (7, 1, 1, 1, "kppp"); (7, 1, 1, 2, "kppd"); (7, 1, 1, 3, "kppf"); (7, 1, 1, 4, "kppg");
    (7, 1, 1, 5, "kpph"); (7, 1, 1, 6, "kppi"); (7, 1, 1, 7, "kppk"); (7, 1, 2, 0, "kpds");
    (7, 1, 2, 1, "kpdp"); (7, 1, 2, 2, "kpdd"); (7, 1, 2, 3, "kpdf"); (7, 1, 2, 4, "kpdg");
    (7, 1, 2, 5, "kpdh"); (7, 1, 2, 6, "kpdi"); (7, 1, 2, 7, "kpdk"); (7, 1, 3, 0, "kpfs");
    (7, 1, 3, 1, "kpfp"); (7, 1, 3, 2, "kpfd"); (7, 1, 3, 3, "kpff"); (7, 1, 3, 4, "kpfg");
    (7, 1, 3, 5, "kpfh"); (7, 1, 3, 6, "kpfi"); (7, 1, 3, 7, "kpfk"); (7, 1, 4, 0, "kpgs");
    (7, 1, 4, 1, "kpgp"); (7, 1, 4, 2, "kpgd"); (7, 1, 4, 3, "kpgf"); (7, 1, 4, 4, "kpgg");
    (7, 1, 4, 5, "kpgh"); (7, 1, 4, 6, "kpgi"); (7, 1, 4, 7, "kpgk"); (7, 1, 5, 0, "kphs");
    (7, 1, 5, 1, "kphp"); (7, 1, 5, 2, "kphd"); (7, 1, 5, 3, "kphf"); (7, 1, 5, 4, "kphg");
    (7, 1, 5, 5, "kphh"); (7, 1, 5, 6, "kphi"); (7, 1, 5, 7, "kphk"); (7, 1, 6, 0, "kpis");
    (7, 1, 6, 1, "kpip"); (7, 1, 6, 2, "kpid"); (7, 1, 6, 3, "kpif"); (7, 1, 6, 4, "kpig");
    (7, 1, 6, 5, "kpih"); (7, 1, 6, 6, "kpii"); (7, 1, 6, 7, "kpik"); (7, 1, 7, 0, "kpks");
    (7, 1, 7, 1, "kpkp"); (7, 1, 7, 2, "kpkd"); (7, 1, 7, 3, "kpkf"); (7, 1, 7, 4, "kpkg");
    (7, 1, 7, 5, "kpkh"); (7, 1, 7, 6, "kpki"); (7, 1, 7, 7, "kpkk"); (7, 2, 0, 0, "kdss");
    (7, 2, 0, 1, "kdsp"); (7, 2, 0, 2, "kdsd"); (7, 2, 0, 3, "kdsf"); (7, 2, 0, 4, "kdsg");
    (7, 2, 0, 5, "kdsh"); (7, 2, 0, 6, "kdsi"); (7, 2, 0, 7, "kdsk"); (7, 2, 1, 0, "kdps");
    (7, 2, 1, 1, "kdpp"); (7, 2, 1, 2, "kdpd"); (7, 2, 1, 3, "kdpf"); (7, 2, 1, 4, "kdpg");
    (7, 2, 1, 5, "kdph"); (7, 2, 1, 6, "kdpi"); (7, 2, 1, 7, "kdpk"); (7, 2, 2, 0, "kdds");
    (7, 2, 2, 1, "kddp"); (7, 2, 2, 2, "kddd"); (7, 2, 2, 3, "kddf"); (7, 2, 2, 4, "kddg");
    (7, 2, 2, 5, "kddh"); (7, 2, 2, 6, "kddi"); (7, 2, 2, 7, "kddk"); (7, 2, 3, 0, "kdfs");
    (7, 2, 3, 1, "kdfp"); (7, 2, 3, 2, "kdfd"); (7, 2, 3, 3, "kdff"); (7, 2, 3, 4, "kdfg");
    (7, 2, 3, 5, "kdfh"); (7, 2, 3, 6, "kdfi"); (7, 2, 3, 7, "kdfk"); (7, 2, 4, 0, "kdgs");
    (7, 2, 4, 1, "kdgp"); (7, 2, 4, 2, "kdgd"); (7, 2, 4, 3, "kdgf"); (7, 2, 4, 4, "kdgg");
    (7, 2, 4, 5, "kdgh"); (7, 2, 4, 6, "kdgi"); (7, 2, 4, 7, "kdgk"); (7, 2, 5, 0, "kdhs");
    (7, 2, 5, 1, "kdhp"); (7, 2, 5, 2, "kdhd"); (7, 2, 5, 3, "kdhf"); (7, 2, 5, 4, "kdhg");
    (7, 2, 5, 5, "kdhh"); (7, 2, 5, 6, "kdhi"); (7, 2, 5, 7, "kdhk"); (7, 2, 6, 0, "kdis");
    (7, 2, 6, 1, "kdip"); (7, 2, 6, 2, "kdid"); (7, 2, 6, 3, "kdif"); (7, 2, 6, 4, "kdig");
    (7, 2, 6, 5, "kdih"); (7, 2, 6, 6, "kdii"); (7, 2, 6, 7, "kdik"); (7, 2, 7, 0, "kdks");
    (7, 2, 7, 1, "kdkp"); (7, 2, 7, 2, "kdkd"); (7, 2, 7, 3, "kdkf"); (7, 2, 7, 4, "kdkg");
    (7, 2, 7, 5, "kdkh"); (7, 2, 7, 6, "kdki"); (7, 2, 7, 7, "kdkk"); (7, 3, 0, 0, "kfss");
    (7, 3, 0, 1, "kfsp"); (7, 3, 0, 2, "kfsd"); (7, 3, 0, 3, "kfsf"); (7, 3, 0, 4, "kfsg");
    (7, 3, 0, 5, "kfsh"); (7, 3, 0, 6, "kfsi"); (7, 3, 0, 7, "kfsk"); (7, 3, 1, 0, "kfps");
    (7, 3, 1, 1, "kfpp"); (7, 3, 1, 2, "kfpd"); (7, 3, 1, 3, "kfpf"); (7, 3, 1, 4, "kfpg");
    (7, 3, 1, 5, "kfph"); (7, 3, 1, 6, "kfpi"); (7, 3, 1, 7, "kfpk"); (7, 3, 2, 0, "kfds");
    (7, 3, 2, 1, "kfdp"); (7, 3, 2, 2, "kfdd"); (7, 3, 2, 3, "kfdf"); (7, 3, 2, 4, "kfdg");
    (7, 3, 2, 5, "kfdh"); (7, 3, 2, 6, "kfdi"); (7, 3, 2, 7, "kfdk"); (7, 3, 3, 0, "kffs");
    (7, 3, 3, 1, "kffp"); (7, 3, 3, 2, "kffd"); (7, 3, 3, 3, "kfff"); (7, 3, 3, 4, "kffg");
    (7, 3, 3, 5, "kffh"); (7, 3, 3, 6, "kffi"); (7, 3, 3, 7, "kffk"); (7, 3, 4, 0, "kfgs");
    (7, 3, 4, 1, "kfgp"); (7, 3, 4, 2, "kfgd"); (7, 3, 4, 3, "kfgf"); (7, 3, 4, 4, "kfgg");
    (7, 3, 4, 5, "kfgh"); (7, 3, 4, 6, "kfgi"); (7, 3, 4, 7, "kfgk"); (7, 3, 5, 0, "kfhs");
    (7, 3, 5, 1, "kfhp"); (7, 3, 5, 2, "kfhd"); (7, 3, 5, 3, "kfhf"); (7, 3, 5, 4, "kfhg");
    (7, 3, 5, 5, "kfhh"); (7, 3, 5, 6, "kfhi"); (7, 3, 5, 7, "kfhk"); (7, 3, 6, 0, "kfis");
    (7, 3, 6, 1, "kfip"); (7, 3, 6, 2, "kfid"); (7, 3, 6, 3, "kfif"); (7, 3, 6, 4, "kfig");
    (7, 3, 6, 5, "kfih"); (7, 3, 6, 6, "kfii"); (7, 3, 6, 7, "kfik"); (7, 3, 7, 0, "kfks");
    (7, 3, 7, 1, "kfkp"); (7, 3, 7, 2, "kfkd"); (7, 3, 7, 3, "kfkf"); (7, 3, 7, 4, "kfkg");
    (7, 3, 7, 5, "kfkh"); (7, 3, 7, 6, "kfki"); (7, 3, 7, 7, "kfkk"); (7, 4, 0, 0, "kgss");
    (7, 4, 0, 1, "kgsp"); (7, 4, 0, 2, "kgsd"); (7, 4, 0, 3, "kgsf"); (7, 4, 0, 4, "kgsg");
    (7, 4, 0, 5, "kgsh"); (7, 4, 0, 6, "kgsi"); (7, 4, 0, 7, "kgsk"); (7, 4, 1, 0, "kgps");
    (7, 4, 1, 1, "kgpp"); (7, 4, 1, 2, "kgpd"); (7, 4, 1, 3, "kgpf"); (7, 4, 1, 4, "kgpg");
    (7, 4, 1, 5, "kgph"); (7, 4, 1, 6, "kgpi"); (7, 4, 1, 7, "kgpk"); (7, 4, 2, 0, "kgds");
    (7, 4, 2, 1, "kgdp"); (7, 4, 2, 2, "kgdd"); (7, 4, 2, 3, "kgdf"); (7, 4, 2, 4, "kgdg");
    (7, 4, 2, 5, "kgdh"); (7, 4, 2, 6, "kgdi"); (7, 4, 2, 7, "kgdk"); (7, 4, 3, 0, "kgfs");
    (7, 4, 3, 1, "kgfp"); (7, 4, 3, 2, "kgfd"); (7, 4, 3, 3, "kgff"); (7, 4, 3, 4, "kgfg");
    (7, 4, 3, 5, "kgfh"); (7, 4, 3, 6, "kgfi"); (7, 4, 3, 7, "kgfk"); (7, 4, 4, 0, "kggs");
    (7, 4, 4, 1, "kggp"); (7, 4, 4, 2, "kggd"); (7, 4, 4, 3, "kggf"); (7, 4, 4, 4, "kggg");
    (7, 4, 4, 5, "kggh"); (7, 4, 4, 6, "kggi"); (7, 4, 4, 7, "kggk"); (7, 4, 5, 0, "kghs");
    (7, 4, 5, 1, "kghp"); (7, 4, 5, 2, "kghd"); (7, 4, 5, 3, "kghf"); (7, 4, 5, 4, "kghg");
    (7, 4, 5, 5, "kghh"); (7, 4, 5, 6, "kghi"); (7, 4, 5, 7, "kghk"); (7, 4, 6, 0, "kgis");
    (7, 4, 6, 1, "kgip"); (7, 4, 6, 2, "kgid"); (7, 4, 6, 3, "kgif"); (7, 4, 6, 4, "kgig");
    (7, 4, 6, 5, "kgih"); (7, 4, 6, 6, "kgii"); (7, 4, 6, 7, "kgik"); (7, 4, 7, 0, "kgks");
    (7, 4, 7, 1, "kgkp"); (7, 4, 7, 2, "kgkd"); (7, 4, 7, 3, "kgkf"); (7, 4, 7, 4, "kgkg");
    (7, 4, 7, 5, "kgkh"); (7, 4, 7, 6, "kgki"); (7, 4, 7, 7, "kgkk"); (7, 5, 0, 0, "khss");
    (7, 5, 0, 1, "khsp"); (7, 5, 0, 2, "khsd"); (7, 5, 0, 3, "khsf"); (7, 5, 0, 4, "khsg");
    (7, 5, 0, 5, "khsh"); (7, 5, 0, 6, "khsi"); (7, 5, 0, 7, "khsk"); (7, 5, 1, 0, "khps");
    (7, 5, 1, 1, "khpp"); (7, 5, 1, 2, "khpd"); (7, 5, 1, 3, "khpf"); (7, 5, 1, 4, "khpg");
    (7, 5, 1, 5, "khph"); (7, 5, 1, 6, "khpi"); (7, 5, 1, 7, "khpk"); (7, 5, 2, 0, "khds");
    (7, 5, 2, 1, "khdp"); (7, 5, 2, 2, "khdd"); (7, 5, 2, 3, "khdf"); (7, 5, 2, 4, "khdg");
    (7, 5, 2, 5, "khdh"); (7, 5, 2, 6, "khdi"); (7, 5, 2, 7, "khdk"); (7, 5, 3, 0, "khfs");
    (7, 5, 3, 1, "khfp"); (7, 5, 3, 2, "khfd"); (7, 5, 3, 3, "khff"); (7, 5, 3, 4, "khfg");
    (7, 5, 3, 5, "khfh"); (7, 5, 3, 6, "khfi"); (7, 5, 3, 7, "khfk"); (7, 5, 4, 0, "khgs");
    (7, 5, 4, 1, "khgp"); (7, 5, 4, 2, "khgd"); (7, 5, 4, 3, "khgf"); (7, 5, 4, 4, "khgg");
    (7, 5, 4, 5, "khgh"); (7, 5, 4, 6, "khgi"); (7, 5, 4, 7, "khgk"); (7, 5, 5, 0, "khhs");
    (7, 5, 5, 1, "khhp"); (7, 5, 5, 2, "khhd"); (7, 5, 5, 3, "khhf"); (7, 5, 5, 4, "khhg");
    (7, 5, 5, 5, "khhh"); (7, 5, 5, 6, "khhi"); (7, 5, 5, 7, "khhk"); (7, 5, 6, 0, "khis");
    (7, 5, 6, 1, "khip"); (7, 5, 6, 2, "khid"); (7, 5, 6, 3, "khif"); (7, 5, 6, 4, "khig");
    (7, 5, 6, 5, "khih"); (7, 5, 6, 6, "khii"); (7, 5, 6, 7, "khik"); (7, 5, 7, 0, "khks");
    (7, 5, 7, 1, "khkp"); (7, 5, 7, 2, "khkd"); (7, 5, 7, 3, "khkf"); (7, 5, 7, 4, "khkg");
    (7, 5, 7, 5, "khkh"); (7, 5, 7, 6, "khki"); (7, 5, 7, 7, "khkk"); (7, 6, 0, 0, "kiss");
    (7, 6, 0, 1, "kisp"); (7, 6, 0, 2, "kisd"); (7, 6, 0, 3, "kisf"); (7, 6, 0, 4, "kisg");
    (7, 6, 0, 5, "kish"); (7, 6, 0, 6, "kisi"); (7, 6, 0, 7, "kisk"); (7, 6, 1, 0, "kips");
    (7, 6, 1, 1, "kipp"); (7, 6, 1, 2, "kipd"); (7, 6, 1, 3, "kipf"); (7, 6, 1, 4, "kipg");
    (7, 6, 1, 5, "kiph"); (7, 6, 1, 6, "kipi"); (7, 6, 1, 7, "kipk"); (7, 6, 2, 0, "kids");
    (7, 6, 2, 1, "kidp"); (7, 6, 2, 2, "kidd"); (7, 6, 2, 3, "kidf"); (7, 6, 2, 4, "kidg");
    (7, 6, 2, 5, "kidh"); (7, 6, 2, 6, "kidi"); (7, 6, 2, 7, "kidk"); (7, 6, 3, 0, "kifs");
    (7, 6, 3, 1, "kifp"); (7, 6, 3, 2, "kifd"); (7, 6, 3, 3, "kiff"); (7, 6, 3, 4, "kifg");
    (7, 6, 3, 5, "kifh"); (7, 6, 3, 6, "kifi"); (7, 6, 3, 7, "kifk"); (7, 6, 4, 0, "kigs");
    (7, 6, 4, 1, "kigp"); (7, 6, 4, 2, "kigd"); (7, 6, 4, 3, "kigf"); (7, 6, 4, 4, "kigg");
    (7, 6, 4, 5, "kigh"); (7, 6, 4, 6, "kigi"); (7, 6, 4, 7, "kigk"); (7, 6, 5, 0, "kihs");
    (7, 6, 5, 1, "kihp"); (7, 6, 5, 2, "kihd"); (7, 6, 5, 3, "kihf"); (7, 6, 5, 4, "kihg");
    (7, 6, 5, 5, "kihh"); (7, 6, 5, 6, "kihi"); (7, 6, 5, 7, "kihk"); (7, 6, 6, 0, "kiis");
    (7, 6, 6, 1, "kiip"); (7, 6, 6, 2, "kiid"); (7, 6, 6, 3, "kiif"); (7, 6, 6, 4, "kiig");
    (7, 6, 6, 5, "kiih"); (7, 6, 6, 6, "kiii"); (7, 6, 6, 7, "kiik"); (7, 6, 7, 0, "kiks");
    (7, 6, 7, 1, "kikp"); (7, 6, 7, 2, "kikd"); (7, 6, 7, 3, "kikf"); (7, 6, 7, 4, "kikg");
    (7, 6, 7, 5, "kikh"); (7, 6, 7, 6, "kiki"); (7, 6, 7, 7, "kikk"); (7, 7, 0, 0, "kkss");
    (7, 7, 0, 1, "kksp"); (7, 7, 0, 2, "kksd"); (7, 7, 0, 3, "kksf"); (7, 7, 0, 4, "kksg");
    (7, 7, 0, 5, "kksh"); (7, 7, 0, 6, "kksi"); (7, 7, 0, 7, "kksk"); (7, 7, 1, 0, "kkps");
    (7, 7, 1, 1, "kkpp"); (7, 7, 1, 2, "kkpd"); (7, 7, 1, 3, "kkpf"); (7, 7, 1, 4, "kkpg");
    (7, 7, 1, 5, "kkph"); (7, 7, 1, 6, "kkpi"); (7, 7, 1, 7, "kkpk"); (7, 7, 2, 0, "kkds");
    (7, 7, 2, 1, "kkdp"); (7, 7, 2, 2, "kkdd"); (7, 7, 2, 3, "kkdf"); (7, 7, 2, 4, "kkdg");
    (7, 7, 2, 5, "kkdh"); (7, 7, 2, 6, "kkdi"); (7, 7, 2, 7, "kkdk"); (7, 7, 3, 0, "kkfs");
    (7, 7, 3, 1, "kkfp"); (7, 7, 3, 2, "kkfd"); (7, 7, 3, 3, "kkff"); (7, 7, 3, 4, "kkfg");
    (7, 7, 3, 5, "kkfh"); (7, 7, 3, 6, "kkfi"); (7, 7, 3, 7, "kkfk"); (7, 7, 4, 0, "kkgs");
    (7, 7, 4, 1, "kkgp"); (7, 7, 4, 2, "kkgd"); (7, 7, 4, 3, "kkgf"); (7, 7, 4, 4, "kkgg");
    (7, 7, 4, 5, "kkgh"); (7, 7, 4, 6, "kkgi"); (7, 7, 4, 7, "kkgk"); (7, 7, 5, 0, "kkhs");
    (7, 7, 5, 1, "kkhp"); (7, 7, 5, 2, "kkhd"); (7, 7, 5, 3, "kkhf"); (7, 7, 5, 4, "kkhg");
    (7, 7, 5, 5, "kkhh"); (7, 7, 5, 6, "kkhi"); (7, 7, 5, 7, "kkhk"); (7, 7, 6, 0, "kkis");
    (7, 7, 6, 1, "kkip"); (7, 7, 6, 2, "kkid"); (7, 7, 6, 3, "kkif"); (7, 7, 6, 4, "kkig");
    (7, 7, 6, 5, "kkih"); (7, 7, 6, 6, "kkii"); (7, 7, 6, 7, "kkik"); (7, 7, 7, 0, "kkks");
    (7, 7, 7, 1, "kkkp"); (7, 7, 7, 2, "kkkd"); (7, 7, 7, 3, "kkkf"); (7, 7, 7, 4, "kkkg");
    (7, 7, 7, 5, "kkkh"); (7, 7, 7, 6, "kkki"); (7, 7, 7, 7, "kkkk")])].

(** ostei_deriv1_init.c:29-4146. *)
Definition init1_groups : list (nat * list (nat * nat * nat * nat * string)) :=
  [(0, [(0, 0, 0, 0, "ssss")]);
   (1, [(0, 0, 0, 1, "sssp"); (0, 0, 1, 0, "ssps"); (0, 0, 1, 1, "sspp"); (0, 1, 0, 0, "spss");
    (0, 1, 0, 1, "spsp"); (0, 1, 1, 0, "spps"); (0, 1, 1, 1, "sppp"); (1, 0, 0, 0, "psss");
    (1, 0, 0, 1, "pssp"); (1, 0, 1, 0, "psps"); (1, 0, 1, 1, "pspp"); (1, 1, 0, 0, "ppss");
    (1, 1, 0, 1, "ppsp"); (1, 1, 1, 0, "ppps"); (1, 1, 1, 1, "pppp")]);
   (2, [(0, 0, 0, 2, "sssd"); (0, 0, 1, 2, "sspd"); (0, 0, 2, 0, "ssds"); (0, 0, 2, 1, "ssdp");
    (0, 0, 2, 2, "ssdd"); (0, 1, 0, 2, "spsd"); (0, 1, 1, 2, "sppd"); (0, 1, 2, 0, "spds");
    (0, 1, 2, 1, "spdp"); (0, 1, 2, 2, "spdd"); (0, 2, 0, 0, "sdss"); (0, 2, 0, 1, "sdsp");
    (0, 2, 0, 2, "sdsd"); (0, 2, 1, 0, "sdps"); (0, 2, 1, 1, "sdpp"); (0, 2, 1, 2, "sdpd");
    (0, 2, 2, 0, "sdds"); (0, 2, 2, 1, "sddp"); (0, 2, 2, 2, "sddd"); (1, 0, 0, 2, "pssd");
    (1, 0, 1, 2, "pspd"); (1, 0, 2, 0, "psds"); (1, 0, 2, 1, "psdp"); (1, 0, 2, 2, "psdd");
    (1, 1, 0, 2, "ppsd"); (1, 1, 1, 2, "pppd"); (1, 1, 2, 0, "ppds"); (1, 1, 2, 1, "ppdp");
    (1, 1, 2, 2, "ppdd"); (1, 2, 0, 0, "pdss"); (1, 2, 0, 1, "pdsp"); (1, 2, 0, 2, "pdsd");
    (1, 2, 1, 0, "pdps"); (1, 2, 1, 1, "pdpp"); (1, 2, 1, 2, "pdpd"); (1, 2, 2, 0, "pdds");
    (1, 2, 2, 1, "pddp"); (1, 2, 2, 2, "pddd"); (2, 0, 0, 0, "dsss"); (2, 0, 0, 1, "dssp");
    (2, 0, 0, 2, "dssd"); (2, 0, 1, 0, "dsps"); (2, 0, 1, 1, "dspp"); (2, 0, 1, 2, "dspd");
    (2, 0, 2, 0, "dsds"); (2, 0, 2, 1, "dsdp"); (2, 0, 2, 2, "dsdd"); (2, 1, 0, 0, "dpss");
    (2, 1, 0, 1, "dpsp"); (2, 1, 0, 2, "dpsd"); (2, 1, 1, 0, "dpps"); (2, 1, 1, 1, "dppp");
    (2, 1, 1, 2, "dppd"); (2, 1, 2, 0, "dpds"); (2, 1, 2, 1, "dpdp"); (2, 1, 2, 2, "dpdd");
    (2, 2, 0, 0, "ddss"); (2, 2, 0, 1, "ddsp"); (2, 2, 0, 2, "ddsd"); (2, 2, 1, 0, "ddps");
    (2, 2, 1, 1, "ddpp"); (2, 2, 1, 2, "ddpd"); (2, 2, 2, 0, "ddds"); (2, 2, 2, 1, "dddp");
    (2, 2, 2, 2, "dddd")]);
   (3, [(0, 0, 0, 3, "sssf"); (0, 0, 1, 3, "sspf"); (0, 0, 2, 3, "ssdf"); (0, 0, 3, 0, "ssfs");
    (0, 0, 3, 1, "ssfp"); (0, 0, 3, 2, "ssfd"); (0, 0, 3, 3, "ssff"); (0, 1, 0, 3, "spsf");
    (0, 1, 1, 3, "sppf"); (0, 1, 2, 3, "spdf"); (0, 1, 3, 0, "spfs"); (0, 1, 3, 1, "spfp");
    (0, 1, 3, 2, "spfd"); (0, 1, 3, 3, "spff"); (0, 2, 0, 3, "sdsf"); (0, 2, 1, 3, "sdpf");
    (0, 2, 2, 3, "sddf"); (0, 2, 3, 0, "sdfs"); (0, 2, 3, 1, "sdfp"); (0, 2, 3, 2, "sdfd");
    (0, 2, 3, 3, "sdff"); (0, 3, 0, 0, "sfss"); (0, 3, 0, 1, "sfsp"); (0, 3, 0, 2, "sfsd");
    (0, 3, 0, 3, "sfsf"); (0, 3, 1, 0, "sfps"); (0, 3, 1, 1, "sfpp"); (0, 3, 1, 2, "sfpd");
    (0, 3, 1, 3, "sfpf"); (0, 3, 2, 0, "sfds"); (0, 3, 2, 1, "sfdp"); (0, 3, 2, 2, "sfdd");
    (0, 3, 2, 3, "sfdf"); (0, 3, 3, 0, "sffs"); (0, 3, 3, 1, "sffp"); (0, 3, 3, 2, "sffd");
    (0, 3, 3, 3, "sfff"); (1, 0, 0, 3, "pssf"); (1, 0, 1, 3, "pspf"); (1, 0, 2, 3, "psdf");
    (1, 0, 3, 0, "psfs"); (1, 0, 3, 1, "psfp"); (1, 0, 3, 2, "psfd"); (1, 0, 3, 3, "psff");
    (1, 1, 0, 3, "ppsf"); (1, 1, 1, 3, "pppf"); (1, 1, 2, 3, "ppdf"); (1, 1, 3, 0, "ppfs");
    (1, 1, 3, 1, "ppfp"); (1, 1, 3, 2, "ppfd"); (1, 1, 3, 3, "ppff"); (1, 2, 0, 3, "pdsf");
    (1, 2, 1, 3, "pdpf"); (1, 2, 2, 3, "pddf"); (1, 2, 3, 0, "pdfs"); (1, 2, 3, 1, "pdfp");
    (1, 2, 3, 2, "pdfd"); (1, 2, 3, 3, "pdff"); (1, 3, 0, 0, "pfss"); (1, 3, 0, 1, "pfsp");
    (1, 3, 0, 2, "pfsd"); (1, 3, 0, 3, "pfsf"); (1, 3, 1, 0, "pfps"); (1, 3, 1, 1, "pfpp");
    (1, 3, 1, 2, "pfpd"); (1, 3, 1, 3, "pfpf"); (1, 3, 2, 0, "pfds"); (1, 3, 2, 1, "pfdp");
    (1, 3, 2, 2, "pfdd"); (1, 3, 2, 3, "pfdf"); (1, 3, 3, 0, "pffs"); (1, 3, 3, 1, "pffp");
    (1, 3, 3, 2, "pffd"); (1, 3, 3, 3, "pfff"); (2, 0, 0, 3, "dssf"); (2, 0, 1, 3, "dspf");
    (2, 0, 2, 3, "dsdf"); (2, 0, 3, 0, "dsfs"); (2, 0, 3, 1, "dsfp"); (2, 0, 3, 2, "dsfd");
    (2, 0, 3, 3, "dsff"); (2, 1, 0, 3, "dpsf"); (2, 1, 1, 3, "dppf"); (2, 1, 2, 3, "dpdf");
    (2, 1, 3, 0, "dpfs"); (2, 1, 3, 1, "dpfp"); (2, 1, 3, 2, "dpfd"); (2, 1, 3, 3, "dpff");
    (2, 2, 0, 3, "ddsf"); (2, 2, 1, 3, "ddpf"); (2, 2, 2, 3, "dddf"); (2, 2, 3, 0, "ddfs");
    (2, 2, 3, 1, "ddfp"); (2, 2, 3, 2, "ddfd"); (2, 2, 3, 3, "ddff"); (2, 3, 0, 0, "dfss");
    (2, 3, 0, 1, "dfsp"); (2, 3, 0, 2, "dfsd"); (2, 3, 0, 3, "dfsf"); (2, 3, 1, 0, "dfps");
    (2, 3, 1, 1, "dfpp"); (2, 3, 1, 2, "dfpd"); (2, 3, 1, 3, "dfpf"); (2, 3, 2, 0, "dfds");
    (2, 3, 2, 1, "dfdp"); (2, 3, 2, 2, "dfdd"); (2, 3, 2, 3, "dfdf"); (2, 3, 3, 0, "dffs");
    (2, 3, 3, 1, "dffp"); (2, 3, 3, 2, "dffd"); (2, 3, 3, 3, "dfff"); (3, 0, 0, 0, "fsss");
    (3, 0, 0, 1, "fssp"); (3, 0, 0, 2, "fssd"); (3, 0, 0, 3, "fssf"); (3, 0, 1, 0, "fsps");
    (3, 0, 1, 1, "fspp"); (3, 0, 1, 2, "fspd"); (3, 0, 1, 3, "fspf"); (3, 0, 2, 0, "fsds");
    (3, 0, 2, 1, "fsdp"); (3, 0, 2, 2, "fsdd"); (3, 0, 2, 3, "fsdf"); (3, 0, 3, 0, "fsfs");
    (3, 0, 3, 1, "fsfp"); (3, 0, 3, 2, "fsfd"); (3, 0, 3, 3, "fsff"); (3, 1, 0, 0, "fpss");
    (3, 1, 0, 1, "fpsp"); (3, 1, 0, 2, "fpsd"); (3, 1, 0, 3, "fpsf"); (3, 1, 1, 0, "fpps");
    (3, 1, 1, 1, "fppp"); (3, 1, 1, 2, "fppd"); (3, 1, 1, 3, "fppf"); (3, 1, 2, 0, "fpds");
    (3, 1, 2, 1, "fpdp"); (3, 1, 2, 2, "fpdd"); (3, 1, 2, 3, "fpdf"); (3, 1, 3, 0, "fpfs");
    (3, 1, 3, 1, "fpfp"); (3, 1, 3, 2, "fpfd"); (3, 1, 3, 3, "fpff"); (3, 2, 0, 0, "fdss");
    (3, 2, 0, 1, "fdsp"); (3, 2, 0, 2, "fdsd"); (3, 2, 0, 3, "fdsf"); (3, 2, 1, 0, "fdps");
    (3, 2, 1, 1, "fdpp"); (3, 2, 1, 2, "fdpd"); (3, 2, 1, 3, "fdpf"); (3, 2, 2, 0, "fdds");
    (3, 2, 2, 1, "fddp"); (3, 2, 2, 2, "fddd"); (3, 2, 2, 3, "fddf"); (3, 2, 3, 0, "fdfs");
    (3, 2, 3, 1, "fdfp"); (3, 2, 3, 2, "fdfd"); (3, 2, 3, 3, "fdff"); (3, 3, 0, 0, "ffss");
    (3, 3, 0, 1, "ffsp"); (3, 3, 0, 2, "ffsd"); (3, 3, 0, 3, "ffsf"); (3, 3, 1, 0, "ffps");
    (3, 3, 1, 1, "ffpp"); (3, 3, 1, 2, "ffpd"); (3, 3, 1, 3, "ffpf"); (3, 3, 2, 0, "ffds");
    (3, 3, 2, 1, "ffdp"); (3, 3, 2, 2, "ffdd"); (3, 3, 2, 3, "ffdf"); (3, 3, 3, 0, "fffs");
    (3, 3, 3, 1, "fffp"); (3, 3, 3, 2, "fffd"); (3, 3, 3, 3, "ffff")]);
   (4, [(0, 0, 0, 4, "sssg"); (0, 0, 1, 4, "sspg"); (0, 0, 2, 4, "ssdg"); (0, 0, 3, 4, "ssfg");
    (0, 0, 4, 0, "ssgs"); (0, 0, 4, 1, "ssgp"); (0, 0, 4, 2, "ssgd"); (0, 0, 4, 3, "ssgf");
    (0, 0, 4, 4, "ssgg"); (0, 1, 0, 4, "spsg"); (0, 1, 1, 4, "sppg"); (0, 1, 2, 4, "spdg");
    (0, 1, 3, 4, "spfg"); (0, 1, 4, 0, "spgs"); (0, 1, 4, 1, "spgp"); (0, 1, 4, 2, "spgd");
    (0, 1, 4, 3, "spgf"); (0, 1, 4, 4, "spgg"); (0, 2, 0, 4, "sdsg"); (0, 2, 1, 4, "sdpg");
    (0, 2, 2, 4, "sddg"); (0, 2, 3, 4, "sdfg"); (0, 2, 4, 0, "sdgs"); (0, 2, 4, 1, "sdgp");
    (0, 2, 4, 2, "sdgd"); (0, 2, 4, 3, "sdgf"); (0, 2, 4, 4, "sdgg"); (0, 3, 0, 4, "sfsg");
    (0, 3, 1, 4, "sfpg"); (0, 3, 2, 4, "sfdg"); (0, 3, 3, 4, "sffg"); (0, 3, 4, 0, "sfgs");
    (0, 3, 4, 1, "sfgp"); (0, 3, 4, 2, "sfgd"); (0, 3, 4, 3, "sfgf"); (0, 3, 4, 4, "sfgg");
    (0, 4, 0, 0, "sgss"); (0, 4, 0, 1, "sgsp"); (0, 4, 0, 2, "sgsd"); (0, 4, 0, 3, "sgsf");
    (0, 4, 0, 4, "sgsg"); (0, 4, 1, 0, "sgps"); (0, 4, 1, 1, "sgpp"); (0, 4, 1, 2, "sgpd");
    (0, 4, 1, 3, "sgpf"); (0, 4, 1, 4, "sgpg"); (0, 4, 2, 0, "sgds"); (0, 4, 2, 1, "sgdp");
    (0, 4, 2, 2, "sgdd"); (0, 4, 2, 3, "sgdf"); (0, 4, 2, 4, "sgdg"); (0, 4, 3, 0, "sgfs");
    (0, 4, 3, 1, "sgfp"); (0, 4, 3, 2, "sgfd"); (0, 4, 3, 3, "sgff"); (0, 4, 3, 4, "sgfg");
    (0, 4, 4, 0, "sggs"); (0, 4, 4, 1, "sggp"); (0, 4, 4, 2, "sggd"); (0, 4, 4, 3, "sggf");
    (0, 4, 4, 4, "sggg"); (1, 0, 0, 4, "pssg"); (1, 0, 1, 4, "pspg"); (1, 0, 2, 4, "psdg");
    (1, 0, 3, 4, "psfg"); (1, 0, 4, 0, "psgs"); (1, 0, 4, 1, "psgp"); (1, 0, 4, 2, "psgd");
    (1, 0, 4, 3, "psgf"); (1, 0, 4, 4, "psgg"); (1, 1, 0, 4, "ppsg"); (1, 1, 1, 4, "pppg");
    (1, 1, 2, 4, "ppdg"); (1, 1, 3, 4, "ppfg"); (1, 1, 4, 0, "ppgs"); (1, 1, 4, 1, "ppgp");
    (1, 1, 4, 2, "ppgd"); (1, 1, 4, 3, "ppgf"); (1, 1, 4, 4, "ppgg"); (1, 2, 0, 4, "pdsg");
    (1, 2, 1, 4, "pdpg"); (1, 2, 2, 4, "pddg"); (1, 2, 3, 4, "pdfg"); (1, 2, 4, 0, "pdgs");
    (1, 2, 4, 1, "pdgp"); (1, 2, 4, 2, "pdgd"); (1, 2, 4, 3, "pdgf"); (1, 2, 4, 4, "pdgg");
    (1, 3, 0, 4, "pfsg"); (1, 3, 1, 4, "pfpg"); (1, 3, 2, 4, "pfdg"); (1, 3, 3, 4, "pffg");
    (1, 3, 4, 0, "pfgs"); (1, 3, 4, 1, "pfgp"); (1, 3, 4, 2, "pfgd"); (1, 3, 4, 3, "pfgf");
    (1, 3, 4, 4, "pfgg"); (1, 4, 0, 0, "pgss"); (1, 4, 0, 1, "pgsp"); (1, 4, 0, 2, "pgsd");
    (1, 4, 0, 3, "pgsf"); (1, 4, 0, 4, "pgsg"); (1, 4, 1, 0, "pgps"); (1, 4, 1, 1, "pgpp");
    (1, 4, 1, 2, "pgpd"); (1, 4, 1, 3, "pgpf"); (1, 4, 1, 4, "pgpg"); (1, 4, 2, 0, "pgds");
    (1, 4, 2, 1, "pgdp"); (1, 4, 2, 2, "pgdd"); (1, 4, 2, 3, "pgdf"); (1, 4, 2, 4, "pgdg");
    (1, 4, 3, 0, "pgfs"); (1, 4, 3, 1, "pgfp"); (1, 4, 3, 2, "pgfd"); (1, 4, 3, 3, "pgff");
    (1, 4, 3, 4, "pgfg"); (1, 4, 4, 0, "pggs"); (1, 4, 4, 1, "pggp"); (1, 4, 4, 2, "pggd");
    (1, 4, 4, 3, "pggf"); (1, 4, 4, 4, "pggg"); (2, 0, 0, 4, "dssg"); (2, 0, 1, 4, "dspg");
    (2, 0, 2, 4, "dsdg"); (2, 0, 3, 4, "dsfg"); (2, 0, 4, 0, "dsgs"); (2, 0, 4, 1, "dsgp");
    (2, 0, 4, 2, "dsgd"); (2, 0, 4, 3, "dsgf"); (2, 0, 4, 4, "dsgg"); (2, 1, 0, 4, "dpsg");
    (2, 1, 1, 4, "dppg"); (2, 1, 2, 4, "dpdg"); (2, 1, 3, 4, "dpfg"); (2, 1, 4, 0, "dpgs");
    (2, 1, 4, 1, "dpgp"); (2, 1, 4, 2, "dpgd"); (2, 1, 4, 3, "dpgf"); (2, 1, 4, 4, "dpgg");
    (2, 2, 0, 4, "ddsg"); (2, 2, 1, 4, "ddpg"); (2, 2, 2, 4, "dddg"); (2, 2, 3, 4, "ddfg");
    (2, 2, 4, 0, "ddgs"); (2, 2, 4, 1, "ddgp"); (2, 2, 4, 2, "ddgd"); (2, 2, 4, 3, "ddgf");
    (2, 2, 4, 4, "ddgg"); (2, 3, 0, 4, "dfsg"); (2, 3, 1, 4, "dfpg"); (2, 3, 2, 4, "dfdg");
    (2, 3, 3, 4, "dffg"); (2, 3, 4, 0, "dfgs"); (2, 3, 4, 1, "dfgp"); (2, 3, 4, 2, "dfgd");
    (2, 3, 4, 3, "dfgf"); (2, 3, 4, 4, "dfgg"); (2, 4, 0, 0, "dgss"); (2, 4, 0, 1, "dgsp");
    (2, 4, 0, 2, "dgsd"); (2, 4, 0, 3, "dgsf"); (2, 4, 0, 4, "dgsg"); (2, 4, 1, 0, "dgps");
    (2, 4, 1, 1, "dgpp"); (2, 4, 1, 2, "dgpd"); (2, 4, 1, 3, "dgpf"); (2, 4, 1, 4, "dgpg");
    (2, 4, 2, 0, "dgds"); (2, 4, 2, 1, "dgdp"); (2, 4, 2, 2, "dgdd"); (2, 4, 2, 3, "dgdf");
    (2, 4, 2, 4, "dgdg"); (2, 4, 3, 0, "dgfs"); (2, 4, 3, 1, "dgfp"); (2, 4, 3, 2, "dgfd");
    (2, 4, 3, 3, "dgff"); (2, 4, 3, 4, "dgfg"); (2, 4, 4, 0, "dggs"); (2, 4, 4, 1, "dggp");
    (2, 4, 4, 2, "dggd"); (2, 4, 4, 3, "dggf"); (2, 4, 4, 4, "dggg"); (3, 0, 0, 4, "fssg");
    (3, 0, 1, 4, "fspg"); (3, 0, 2, 4, "fsdg"); (3, 0, 3, 4, "fsfg"); (3, 0, 4, 0, "fsgs");
    (3, 0, 4, 1, "fsgp"); (3, 0, 4, 2, "fsgd"); (3, 0, 4, 3, "fsgf"); (3, 0, 4, 4, "fsgg");
    (3, 1, 0, 4, "fpsg"); (3, 1, 1, 4, "fppg"); (3, 1, 2, 4, "fpdg"); (3, 1, 3, 4, "fpfg");
    (3, 1, 4, 0, "fpgs"); (3, 1, 4, 1, "fpgp"); (3, 1, 4, 2, "fpgd"); (3, 1, 4, 3, "fpgf");
    (3, 1, 4, 4, "fpgg"); (3, 2, 0, 4, "fdsg"); (3, 2, 1, 4, "fdpg"); (3, 2, 2, 4, "fddg");
    (3, 2, 3, 4, "fdfg"); (3, 2, 4, 0, "fdgs"); (3, 2, 4, 1, "fdgp"); (3, 2, 4, 2, "fdgd");
    (3, 2, 4, 3, "fdgf"); (3, 2, 4, 4, "fdgg"); (3, 3, 0, 4, "ffsg"); (3, 3, 1, 4, "ffpg");
    (3, 3, 2, 4, "ffdg"); (3, 3, 3, 4, "fffg"); (3, 3, 4, 0, "ffgs"); (3, 3, 4, 1, "ffgp");
    (3, 3, 4, 2, "ffgd"); (3, 3, 4, 3, "ffgf"); (3, 3, 4, 4, "ffgg"); (3, 4, 0, 0, "fgss");
    (3, 4, 0, 1, "fgsp"); (3, 4, 0, 2, "fgsd"); (3, 4, 0, 3, "fgsf"); (3, 4, 0, 4, "fgsg");
    (3, 4, 1, 0, "fgps"); (3, 4, 1, 1, "fgpp"); (3, 4, 1, 2, "fgpd"); (3, 4, 1, 3, "fgpf");
    (3, 4, 1, 4, "fgpg"); (3, 4, 2, 0, "fgds"); (3, 4, 2, 1, "fgdp"); (3, 4, 2, 2, "fgdd");
    (3, 4, 2, 3, "fgdf"); (3, 4, 2, 4, "fgdg"); (3, 4, 3, 0, "fgfs"); (3, 4, 3, 1, "fgfp");
    (3, 4, 3, 2, "fgfd"); (3, 4, 3, 3, "fgff"); (3, 4, 3, 4, "fgfg"); (3, 4, 4, 0, "fggs");
    (3, 4, 4, 1, "fggp"); (3, 4, 4, 2, "fggd"); (3, 4, 4, 3, "fggf"); (3, 4, 4, 4, "fggg");
    (4, 0, 0, 0, "gsss"); (4, 0, 0, 1, "gssp"); (4, 0, 0, 2, "gssd"); (4, 0, 0, 3, "gssf");
    (4, 0, 0, 4, "gssg"); (4, 0, 1, 0, "gsps"); (4, 0, 1, 1, "gspp"); (4, 0, 1, 2, "gspd");
    (4, 0, 1, 3, "gspf"); (4, 0, 1, 4, "gspg"); (4, 0, 2, 0, "gsds"); (4, 0, 2, 1, "gsdp");
    (4, 0, 2, 2, "gsdd"); (4, 0, 2, 3, "gsdf"); (4, 0, 2, 4, "gsdg"); (4, 0, 3, 0, "gsfs");
    (4, 0, 3, 1, "gsfp"); (4, 0, 3, 2, "gsfd"); (4, 0, 3, 3, "gsff"); (4, 0, 3, 4, "gsfg");
    (4, 0, 4, 0, "gsgs"); (4, 0, 4, 1, "gsgp"); (4, 0, 4, 2, "gsgd"); (4, 0, 4, 3, "gsgf");
    (4, 0, 4, 4, "gsgg"); (4, 1, 0, 0, "gpss"); (4, 1, 0, 1, "gpsp"); (4, 1, 0, 2, "gpsd");
    (4, 1, 0, 3, "gpsf"); (4, 1, 0, 4, "gpsg"); (4, 1, 1, 0, "gpps"); (4, 1, 1, 1, "gppp");
    (4, 1, 1, 2, "gppd"); (4, 1, 1, 3, "gppf"); (4, 1, 1, 4, "gppg"); (4, 1, 2, 0, "gpds");
    (4, 1, 2, 1, "gpdp"); (4, 1, 2, 2, "gpdd"); (4, 1, 2, 3, "gpdf"); (4, 1, 2, 4, "gpdg");
    (4, 1, 3, 0, "gpfs"); (4, 1, 3, 1, "gpfp"); (4, 1, 3, 2, "gpfd"); (4, 1, 3, 3, "gpff");
    (4, 1, 3, 4, "gpfg"); (4, 1, 4, 0, "gpgs"); (4, 1, 4, 1, "gpgp"); (4, 1, 4, 2, "gpgd");
    (4, 1, 4, 3, "gpgf"); (4, 1, 4, 4, "gpgg"); (4, 2, 0, 0, "gdss"); (4, 2, 0, 1, "gdsp");
    (4, 2, 0, 2, "gdsd"); (4, 2, 0, 3, "gdsf"); (4, 2, 0, 4, "gdsg"); (4, 2, 1, 0, "gdps");
    (4, 2, 1, 1, "gdpp"); (4, 2, 1, 2, "gdpd"); (4, 2, 1, 3, "gdpf"); (4, 2, 1, 4, "gdpg");
    (4, 2, 2, 0, "gdds"); (4, 2, 2, 1, "gddp"); (4, 2, 2, 2, "gddd"); (4, 2, 2, 3, "gddf");
    (4, 2, 2, 4, "gddg"); (4, 2, 3, 0, "gdfs"); (4, 2, 3, 1, "gdfp"); (4, 2, 3, 2, "gdfd");
    (4, 2, 3, 3, "gdff"); (4, 2, 3, 4, "gdfg"); (4, 2, 4, 0, "gdgs"); (4, 2, 4, 1, "gdgp");
    (4, 2, 4, 2, "gdgd"); (4, 2, 4, 3, "gdgf"); (4, 2, 4, 4, "gdgg"); (4, 3, 0, 0, "gfss");
    (4, 3, 0, 1, "gfsp"); (4, 3, 0, 2, "gfsd"); (4, 3, 0, 3, "gfsf"); (4, 3, 0, 4, "gfsg");
    (4, 3, 1, 0, "gfps"); (4, 3, 1, 1, "gfpp"); (4, 3, 1, 2, "gfpd"); (4, 3, 1, 3, "gfpf");
    (4, 3, 1, 4, "gfpg"); (4, 3, 2, 0, "gfds"); (4, 3, 2, 1, "gfdp"); (4, 3, 2, 2, "gfdd");
    (4, 3, 2, 3, "gfdf"); (4, 3, 2, 4, "gfdg"); (4, 3, 3, 0, "gffs"); (4, 3, 3, 1, "gffp");
    (4, 3, 3, 2, "gffd"); (4, 3, 3, 3, "gfff"); (4, 3, 3, 4, "gffg"); (4, 3, 4, 0, "gfgs");
    (4, 3, 4, 1, "gfgp"); (4, 3, 4, 2, "gfgd"); (4, 3, 4, 3, "gfgf"); (4, 3, 4, 4, "gfgg");
    (4, 4, 0, 0, "ggss"); (4, 4, 0, 1, "ggsp"); (4, 4, 0, 2, "ggsd"); (4, 4, 0, 3, "ggsf");
    (4, 4, 0, 4, "ggsg"); (4, 4, 1, 0, "ggps"); (4, 4, 1, 1, "ggpp"); (4, 4, 1, 2, "ggpd");
    (4, 4, 1, 3, "ggpf"); (4, 4, 1, 4, "ggpg"); (4, 4, 2, 0, "ggds"); (4, 4, 2, 1, "ggdp");
    (4, 4, 2, 2, "ggdd"); (4, 4, 2, 3, "ggdf"); (4, 4, 2, 4, "ggdg"); (4, 4, 3, 0, "ggfs");
    (4, 4, 3, 1, "ggfp"); (4, 4, 3, 2, "ggfd"); (4, 4, 3, 3, "ggff"); (4, 4, 3, 4, "ggfg");
    (4, 4, 4, 0, "gggs"); (4, 4, 4, 1, "gggp"); (4, 4, 4, 2, "gggd"); (4, 4, 4, 3, "gggf");
    (4, 4, 4, 4, "gggg")]);
   (5, [(0, 0, 0, 5, "sssh"); (0, 0, 1, 5, "ssph"); (0, 0, 2, 5, "ssdh"); (0, 0, 3, 5, "ssfh");
    (0, 0, 4, 5, "ssgh"); (0, 0, 5, 0, "sshs"); (0, 0, 5, 1, "sshp"); (0, 0, 5, 2, "sshd");
    (0, 0, 5, 3, "sshf"); (0, 0, 5, 4, "sshg"); (0, 0, 5, 5, "sshh"); (0, 1, 0, 5, "spsh");
    (0, 1, 1, 5, "spph"); (0, 1, 2, 5, "spdh"); (0, 1, 3, 5, "spfh"); (0, 1, 4, 5, "spgh");
    (0, 1, 5, 0, "sphs"); (0, 1, 5, 1, "sphp"); (0, 1, 5, 2, "sphd"); (0, 1, 5, 3, "sphf");
    (0, 1, 5, 4, "sphg"); (0, 1, 5, 5, "sphh"); (0, 2, 0, 5, "sdsh"); (0, 2, 1, 5, "sdph");
    (0, 2, 2, 5, "sddh"); (0, 2, 3, 5, "sdfh"); (0, 2, 4, 5, "sdgh"); (0, 2, 5, 0, "sdhs");
    (0, 2, 5, 1, "sdhp"); (0, 2, 5, 2, "sdhd"); (0, 2, 5, 3, "sdhf"); (0, 2, 5, 4, "sdhg");
    (0, 2, 5, 5, "sdhh"); (0, 3, 0, 5, "sfsh"); (0, 3, 1, 5, "sfph"); (0, 3, 2, 5, "sfdh");
    (0, 3, 3, 5, "sffh"); (0, 3, 4, 5, "sfgh"); (0, 3, 5, 0, "sfhs"); (0, 3, 5, 1, "sfhp");
    (0, 3, 5, 2, "sfhd"); (0, 3, 5, 3, "sfhf"); (0, 3, 5, 4, "sfhg"); (0, 3, 5, 5, "sfhh");
    (0, 4, 0, 5, "sgsh"); (0, 4, 1, 5, "sgph"); (0, 4, 2, 5, "sgdh"); (0, 4, 3, 5, "sgfh");
    (0, 4, 4, 5, "sggh"); (0, 4, 5, 0, "sghs"); (0, 4, 5, 1, "sghp"); (0, 4, 5, 2, "sghd");
    (0, 4, 5, 3, "sghf"); (0, 4, 5, 4, "sghg"); (0, 4, 5, 5, "sghh"); (0, 5, 0, 0, "shss");
    (0, 5, 0, 1, "shsp"); (0, 5, 0, 2, "shsd"); (0, 5, 0, 3, "shsf"); (0, 5, 0, 4, "shsg");
    (0, 5, 0, 5, "shsh"); (0, 5, 1, 0, "shps"); (0, 5, 1, 1, "shpp"); (0, 5, 1, 2, "shpd");
    (0, 5, 1, 3, "shpf"); (0, 5, 1, 4, "shpg"); (0, 5, 1, 5, "shph"); (0, 5, 2, 0, "shds");
    (0, 5, 2, 1, "shdp"); (0, 5, 2, 2, "shdd"); (0, 5, 2, 3, "shdf"); (0, 5, 2, 4, "shdg");
    (0, 5, 2, 5, "shdh"); (0, 5, 3, 0, "shfs"); (0, 5, 3, 1, "shfp"); (0, 5, 3, 2, "shfd");
    (0, 5, 3, 3, "shff"); (0, 5, 3, 4, "shfg"); (0, 5, 3, 5, "shfh"); (0, 5, 4, 0, "shgs");
    (0, 5, 4, 1, "shgp"); (0, 5, 4, 2, "shgd"); (0, 5, 4, 3, "shgf"); (0, 5, 4, 4, "shgg");
    (0, 5, 4, 5, "shgh"); (0, 5, 5, 0, "shhs"); (0, 5, 5, 1, "shhp"); (0, 5, 5, 2, "shhd");
    (0, 5, 5, 3, "shhf"); (0, 5, 5, 4, "shhg"); (0, 5, 5, 5, "shhh"); (1, 0, 0, 5, "pssh");
    (1, 0, 1, 5, "psph"); (1, 0, 2, 5, "psdh"); (1, 0, 3, 5, "psfh"); (1, 0, 4, 5, "psgh");
    (1, 0, 5, 0, "pshs"); (1, 0, 5, 1, "pshp"); (1, 0, 5, 2, "pshd"); (1, 0, 5, 3, "pshf");
    (1, 0, 5, 4, "pshg"); (1, 0, 5, 5, "pshh"); (1, 1, 0, 5, "ppsh"); (1, 1, 1, 5, "ppph");
    (1, 1, 2, 5, "ppdh"); (1, 1, 3, 5, "ppfh"); (1, 1, 4, 5, "ppgh"); (1, 1, 5, 0, "pphs");
    (1, 1, 5, 1, "pphp"); (1, 1, 5, 2, "pphd"); (1, 1, 5, 3, "pphf"); (1, 1, 5, 4, "pphg");
    (1, 1, 5, 5, "pphh"); (1, 2, 0, 5, "pdsh"); (1, 2, 1, 5, "pdph"); (1, 2, 2, 5, "pddh");
    (1, 2, 3, 5, "pdfh"); (1, 2, 4, 5, "pdgh"); (1, 2, 5, 0, "pdhs"); (1, 2, 5, 1, "pdhp");
    (1, 2, 5, 2, "pdhd"); (1, 2, 5, 3, "pdhf"); (1, 2, 5, 4, "pdhg"); (1, 2, 5, 5, "pdhh");
    (1, 3, 0, 5, "pfsh"); (1, 3, 1, 5, "pfph"); (1, 3, 2, 5, "pfdh"); (1, 3, 3, 5, "pffh");
    (1, 3, 4, 5, "pfgh"); (1, 3, 5, 0, "pfhs"); (1, 3, 5, 1, "pfhp"); (1, 3, 5, 2, "pfhd");
    (1, 3, 5, 3, "pfhf"); (1, 3, 5, 4, "pfhg"); (1, 3, 5, 5, "pfhh"); (1, 4, 0, 5, "pgsh");
    (1, 4, 1, 5, "pgph"); (1, 4, 2, 5, "pgdh"); (1, 4, 3, 5, "pgfh"); (1, 4, 4, 5, "pggh");
    (1, 4, 5, 0, "pghs"); (1, 4, 5, 1, "pghp"); (1, 4, 5, 2, "pghd"); (1, 4, 5, 3, "pghf");
    (1, 4, 5, 4, "pghg"); (1, 4, 5, 5, "pghh"); (1, 5, 0, 0, "phss"); (1, 5, 0, 1, "phsp");
    (1, 5, 0, 2, "phsd"); (1, 5, 0, 3, "phsf"); (1, 5, 0, 4, "phsg"); (1, 5, 0, 5, "phsh");
    (1, 5, 1, 0, "phps"); (1, 5, 1, 1, "phpp"); (1, 5, 1, 2, "phpd"); (1, 5, 1, 3, "phpf");
    (1, 5, 1, 4, "phpg"); (1, 5, 1, 5, "phph"); (1, 5, 2, 0, "phds"); (1, 5, 2, 1, "phdp");
    (1, 5, 2, 2, "phdd"); (1, 5, 2, 3, "phdf"); (1, 5, 2, 4, "phdg"); (1, 5, 2, 5, "phdh");
    (1, 5, 3, 0, "phfs"); (1, 5, 3, 1, "phfp"); (1, 5, 3, 2, "phfd"); (1, 5, 3, 3, "phff");
    (1, 5, 3, 4, "phfg"); (1, 5, 3, 5, "phfh"); (1, 5, 4, 0, "phgs"); (1, 5, 4, 1, "phgp");
    (1, 5, 4, 2, "phgd"); (1, 5, 4, 3, "phgf"); (1, 5, 4, 4, "phgg"); (1, 5, 4, 5, "phgh");
    (1, 5, 5, 0, "phhs"); (1, 5, 5, 1, "phhp"); (1, 5, 5, 2, "phhd"); (1, 5, 5, 3, "phhf");
    (1, 5, 5, 4, "phhg"); (1, 5, 5, 5, "phhh"); (2, 0, 0, 5, "dssh"); (2, 0, 1, 5, "dsph");
    (2, 0, 2, 5, "dsdh"); (2, 0, 3, 5, "dsfh"); (2, 0, 4, 5, "dsgh"); (2, 0, 5, 0, "dshs");
    (2, 0, 5, 1, "dshp"); (2, 0, 5, 2, "dshd"); (2, 0, 5, 3, "dshf"); (2, 0, 5, 4, "dshg");
    (2, 0, 5, 5, "dshh"); (2, 1, 0, 5, "dpsh"); (2, 1, 1, 5, "dpph"); (2, 1, 2, 5, "dpdh");
    (2, 1, 3, 5, "dpfh"); (2, 1, 4, 5, "dpgh"); (2, 1, 5, 0, "dphs"); (2, 1, 5, 1, "dphp");
    (2, 1, 5, 2, "dphd"); (2, 1, 5, 3, "dphf"); (2, 1, 5, 4, "dphg"); (2, 1, 5, 5, "dphh");
    (2, 2, 0, 5, "ddsh"); (2, 2, 1, 5, "ddph"); (2, 2, 2, 5, "dddh"); (2, 2, 3, 5, "ddfh");
    (2, 2, 4, 5, "ddgh"); (2, 2, 5, 0, "ddhs"); (2, 2, 5, 1, "ddhp"); (2, 2, 5, 2, "ddhd");
    (2, 2, 5, 3, "ddhf"); (2, 2, 5, 4, "ddhg"); (2, 2, 5, 5, "ddhh"); (2, 3, 0, 5, "dfsh");
    (2, 3, 1, 5, "dfph"); (2, 3, 2, 5, "dfdh"); (2, 3, 3, 5, "dffh"); (2, 3, 4, 5, "dfgh");
    (2, 3, 5, 0, "dfhs"); (2, 3, 5, 1, "dfhp"); (2, 3, 5, 2, "dfhd"); (2, 3, 5, 3, "dfhf");
    (2, 3, 5, 4, "dfhg"); (2, 3, 5, 5, "dfhh"); (2, 4, 0, 5, "dgsh"); (2, 4, 1, 5, "dgph");
    (2, 4, 2, 5, "dgdh"); (2, 4, 3, 5, "dgfh"); (2, 4, 4, 5, "dggh"); (2, 4, 5, 0, "dghs");
    (2, 4, 5, 1, "dghp"); (2, 4, 5, 2, "dghd"); (2, 4, 5, 3, "dghf"); (2, 4, 5, 4, "dghg");
    (2, 4, 5, 5, "dghh"); (2, 5, 0, 0, "dhss"); (2, 5, 0, 1, "dhsp"); (2, 5, 0, 2, "dhsd");
    (2, 5, 0, 3, "dhsf"); (2, 5, 0, 4, "dhsg"); (2, 5, 0, 5, "dhsh"); (2, 5, 1, 0, "dhps");
    (2, 5, 1, 1, "dhpp"); (2, 5, 1, 2, "dhpd"); (2, 5, 1, 3, "dhpf"); (2, 5, 1, 4, "dhpg");
    (2, 5, 1, 5, "dhph"); (2, 5, 2, 0, "dhds"); (2, 5, 2, 1, "dhdp"); (2, 5, 2, 2, "dhdd");
    (2, 5, 2, 3, "dhdf"); (2, 5, 2, 4, "dhdg"); (2, 5, 2, 5, "dhdh"); (2, 5, 3, 0, "dhfs");
    (2, 5, 3, 1, "dhfp"); (2, 5, 3, 2, "dhfd"); (2, 5, 3, 3, "dhff"); (2, 5, 3, 4, "dhfg");
    (2, 5, 3, 5, "dhfh"); (2, 5, 4, 0, "dhgs"); (2, 5, 4, 1, "dhgp"); (2, 5, 4, 2, "dhgd");
    (2, 5, 4, 3, "dhgf"); (2, 5, 4, 4, "dhgg"); (2, 5, 4, 5, "dhgh"); (2, 5, 5, 0, "dhhs");
    (2, 5, 5, 1, "dhhp"); (2, 5, 5, 2, "dhhd"); (2, 5, 5, 3, "dhhf"); (2, 5, 5, 4, "dhhg");
    (2, 5, 5, 5, "dhhh"); (3, 0, 0, 5, "fssh"); (3, 0, 1, 5, "fsph"); (3, 0, 2, 5, "fsdh");
    (3, 0, 3, 5, "fsfh"); (3, 0, 4, 5, "fsgh"); (3, 0, 5, 0, "fshs"); (3, 0, 5, 1, "fshp");
    (3, 0, 5, 2, "fshd"); (3, 0, 5, 3, "fshf"); (3, 0, 5, 4, "fshg"); (3, 0, 5, 5, "fshh");
    (3, 1, 0, 5, "fpsh"); (3, 1, 1, 5, "fpph"); (3, 1, 2, 5, "fpdh"); (3, 1, 3, 5, "fpfh");
    (3, 1, 4, 5, "fpgh"); (3, 1, 5, 0, "fphs"); (3, 1, 5, 1, "fphp"); (3, 1, 5, 2, "fphd");
    (3, 1, 5, 3, "fphf"); (3, 1, 5, 4, "fphg"); (3, 1, 5, 5, "fphh"); (3, 2, 0, 5, "fdsh");
    (3, 2, 1, 5, "fdph"); (3, 2, 2, 5, "fddh"); (3, 2, 3, 5, "fdfh"); (3, 2, 4, 5, "fdgh");
    (3, 2, 5, 0, "fdhs"); (3, 2, 5, 1, "fdhp"); (3, 2, 5, 2, "fdhd"); (3, 2, 5, 3, "fdhf");
    (3, 2, 5, 4, "fdhg"); (3, 2, 5, 5, "fdhh"); (3, 3, 0, 5, "ffsh"); (3, 3, 1, 5, "ffph");
    (3, 3, 2, 5, "ffdh"); (3, 3, 3, 5, "fffh"); (3, 3, 4, 5, "ffgh"); (3, 3, 5, 0, "ffhs");
    (3, 3, 5, 1, "ffhp"); (3, 3, 5, 2, "ffhd"); (3, 3, 5, 3, "ffhf"); (3, 3, 5, 4, "ffhg");
    (3, 3, 5, 5, "ffhh"); (3, 4, 0, 5, "fgsh"); (3, 4, 1, 5, "fgph"); (3, 4, 2, 5, "fgdh");
    (3, 4, 3, 5, "fgfh"); (3, 4, 4, 5, "fggh"); (3, 4, 5, 0, "fghs"); (3, 4, 5, 1, "fghp");
    (3, 4, 5, 2, "fghd"); (3, 4, 5, 3, "fghf"); (3, 4, 5, 4, "fghg"); (3, 4, 5, 5, "fghh");
    (3, 5, 0, 0, "fhss"); (3, 5, 0, 1, "fhsp"); (3, 5, 0, 2, "fhsd"); (3, 5, 0, 3, "fhsf");
    (3, 5, 0, 4, "fhsg"); (3, 5, 0, 5, "fhsh"); (3, 5, 1, 0, "fhps"); (3, 5, 1, 1, "fhpp");
    (3, 5, 1, 2, "fhpd"); (3, 5, 1, 3, "fhpf"); (3, 5, 1, 4, "fhpg"); (3, 5, 1, 5, "fhph");
    (3, 5, 2, 0, "fhds"); (3, 5, 2, 1, "fhdp"); (3, 5, 2, 2, "fhdd"); (3, 5, 2, 3, "fhdf");
    (3, 5, 2, 4, "fhdg"); (3, 5, 2, 5, "fhdh"); (3, 5, 3, 0, "fhfs"); (3, 5, 3, 1, "fhfp");
    (3, 5, 3, 2, "fhfd"); (3, 5, 3, 3, "fhff"); (3, 5, 3, 4, "fhfg"); (3, 5, 3, 5, "fhfh");
    (3, 5, 4, 0, "fhgs"); (3, 5, 4, 1, "fhgp"); (3, 5, 4, 2, "fhgd"); (3, 5, 4, 3, "fhgf");
    (3, 5, 4, 4, "fhgg"); (3, 5, 4, 5, "fhgh"); (3, 5, 5, 0, "fhhs"); (3, 5, 5, 1, "fhhp");
    (3, 5, 5, 2, "fhhd"); (3, 5, 5, 3, "fhhf"); (3, 5, 5, 4, "fhhg"); (3, 5, 5, 5, "fhhh");
    (4, 0, 0, 5, "gssh"); (4, 0, 1, 5, "gsph"); (4, 0, 2, 5, "gsdh"); (4, 0, 3, 5, "gsfh");
    (4, 0, 4, 5, "gsgh"); (4, 0, 5, 0, "gshs"); (4, 0, 5, 1, "gshp"); (4, 0, 5, 2, "gshd");
    (4, 0, 5, 3, "gshf"); (4, 0, 5, 4, "gshg"); (4, 0, 5, 5, "gshh"); (4, 1, 0, 5, "gpsh");
    (4, 1, 1, 5, "gpph"); (4, 1, 2, 5, "gpdh"); (4, 1, 3, 5, "gpfh"); (4, 1, 4, 5, "gpgh");
    (4, 1, 5, 0, "gphs"); (4, 1, 5, 1, "gphp"); (4, 1, 5, 2, "gphd"); (4, 1, 5, 3, "gphf");
    (4, 1, 5, 4, "gphg"); (4, 1, 5, 5, "gphh"); (4, 2, 0, 5, "gdsh"); (4, 2, 1, 5, "gdph");
    (4, 2, 2, 5, "gddh"); (4, 2, 3, 5, "gdfh"); (4, 2, 4, 5, "gdgh"); (4, 2, 5, 0, "gdhs");
    (4, 2, 5, 1, "gdhp"); (4, 2, 5, 2, "gdhd"); (4, 2, 5, 3, "gdhf"); (4, 2, 5, 4, "gdhg");
    (4, 2, 5, 5, "gdhh"); (4, 3, 0, 5, "gfsh"); (4, 3, 1, 5, "gfph"); (4, 3, 2, 5, "gfdh");
    (4, 3, 3, 5, "gffh"); (4, 3, 4, 5, "gfgh"); (4, 3, 5, 0, "gfhs"); (4, 3, 5, 1, "gfhp");
    (4, 3, 5, 2, "gfhd"); (4, 3, 5, 3, "gfhf"); (4, 3, 5, 4, "gfhg"); (4, 3, 5, 5, "gfhh");
    (4, 4, 0, 5, "ggsh"); (4, 4, 1, 5, "ggph"); (4, 4, 2, 5, "ggdh"); (4, 4, 3, 5, "ggfh");
    (4, 4, 4, 5, "gggh"); (4, 4, 5, 0, "gghs"); (4, 4, 5, 1, "gghp"); (4, 4, 5, 2, "gghd");
    (4, 4, 5, 3, "gghf"); (4, 4, 5, 4, "gghg"); (4, 4, 5, 5, "gghh"); (4, 5, 0, 0, "ghss");
    (4, 5, 0, 1, "ghsp"); (4, 5, 0, 2, "ghsd"); (4, 5, 0, 3, "ghsf"); (4, 5, 0, 4, "ghsg");
    (4, 5, 0, 5, "ghsh"); (4, 5, 1, 0, "ghps"); (4, 5, 1, 1, "ghpp"); (4, 5, 1, 2, "ghpd");
    (4, 5, 1, 3, "ghpf"); (4, 5, 1, 4, "ghpg"); (4, 5, 1, 5, "ghph"); (4, 5, 2, 0, "ghds");
    (4, 5, 2, 1, "ghdp"); (4, 5, 2, 2, "ghdd"); (4, 5, 2, 3, "ghdf"); (4, 5, 2, 4, "ghdg");
    (4, 5, 2, 5, "ghdh"); (4, 5, 3, 0, "ghfs"); (4, 5, 3, 1, "ghfp"); (4, 5, 3, 2, "ghfd");
    (4, 5, 3, 3, "ghff"); (4, 5, 3, 4, "ghfg"); (4, 5, 3, 5, "ghfh"); (4, 5, 4, 0, "ghgs");
    (4, 5, 4, 1, "ghgp"); (4, 5, 4, 2, "ghgd"); (4, 5, 4, 3, "ghgf"); (4, 5, 4, 4, "ghgg");
    (4, 5, 4, 5, "ghgh"); (4, 5, 5, 0, "ghhs"); (4, 5, 5, 1, "ghhp"); (4, 5, 5, 2, "ghhd");
    (4, 5, 5, 3, "ghhf"); (4, 5, 5, 4, "ghhg"); (4, 5, 5, 5, "ghhh"); (5, 0, 0, 0, "hsss");
    (5, 0, 0, 1, "hssp"); (5, 0, 0, 2, "hssd"); (5, 0, 0, 3, "hssf"); (5, 0, 0, 4, "hssg");
    (5, 0, 0, 5, "hssh"); (5, 0, 1, 0, "hsps"); (5, 0, 1, 1, "hspp"); (5, 0, 1, 2, "hspd");
    (5, 0, 1, 3, "hspf"); (5, 0, 1, 4, "hspg"); (5, 0, 1, 5, "hsph"); (5, 0, 2, 0, "hsds");
    (5, 0, 2, 1, "hsdp"); (5, 0, 2, 2, "hsdd"); (5, 0, 2, 3, "hsdf"); (5, 0, 2, 4, "hsdg");
    (5, 0, 2, 5, "hsdh"); (5, 0, 3, 0, "hsfs"); (5, 0, 3, 1, "hsfp"); (5, 0, 3, 2, "hsfd");
    (5, 0, 3, 3, "hsff"); (5, 0, 3, 4, "hsfg"); (5, 0, 3, 5, "hsfh"); (5, 0, 4, 0, "hsgs");
    (5, 0, 4, 1, "hsgp"); (5, 0, 4, 2, "hsgd"); (5, 0, 4, 3, "hsgf"); (5, 0, 4, 4, "hsgg");
    (5, 0, 4, 5, "hsgh"); (5, 0, 5, 0, "hshs"); (5, 0, 5, 1, "hshp"); (5, 0, 5, 2, "hshd");
    (5, 0, 5, 3, "hshf"); (5, 0, 5, 4, "hshg"); (5, 0, 5, 5, "hshh"); (5, 1, 0, 0, "hpss");
    (5, 1, 0, 1, "hpsp"); (5, 1, 0, 2, "hpsd"); (5, 1, 0, 3, "hpsf"); (5, 1, 0, 4, "hpsg");
    (5, 1, 0, 5, "hpsh"); (5, 1, 1, 0, "hpps"); (5, 1, 1, 1, "hppp"); (5, 1, 1, 2, "hppd");
    (5, 1, 1, 3, "hppf"); (5, 1, 1, 4, "hppg"); (5, 1, 1, 5, "hpph"); (5, 1, 2, 0, "hpds");
    (5, 1, 2, 1, "hpdp"); (5, 1, 2, 2, "hpdd"); (5, 1, 2, 3, "hpdf"); (5, 1, 2, 4, "hpdg");
    (5, 1, 2, 5, "hpdh"); (5, 1, 3, 0, "hpfs"); (5, 1, 3, 1, "hpfp"); (5, 1, 3, 2, "hpfd");
    (5, 1, 3, 3, "hpff"); (5, 1, 3, 4, "hpfg"); (5, 1, 3, 5, "hpfh"); (5, 1, 4, 0, "hpgs");
    (5, 1, 4, 1, "hpgp"); (5, 1, 4, 2, "hpgd"); (5, 1, 4, 3, "hpgf"); (5, 1, 4, 4, "hpgg");
    (5, 1, 4, 5, "hpgh"); (5, 1, 5, 0, "hphs"); (5, 1, 5, 1, "hphp"); (5, 1, 5, 2, "hphd");
    (5, 1, 5, 3, "hphf"); (5, 1, 5, 4, "hphg"); (5, 1, 5, 5, "hphh"); (5, 2, 0, 0, "hdss");
    (5, 2, 0, 1, "hdsp"); (5, 2, 0, 2, "hdsd"); (5, 2, 0, 3, "hdsf"); (5, 2, 0, 4, "hdsg");
    (5, 2, 0, 5, "hdsh"); (5, 2, 1, 0, "hdps"); (5, 2, 1, 1, "hdpp"); (5, 2, 1, 2, "hdpd");
    (5, 2, 1, 3, "hdpf"); (5, 2, 1, 4, "hdpg"); (5, 2, 1, 5, "hdph"); (5, 2, 2, 0, "hdds");
    (5, 2, 2, 1, "hddp"); (5, 2, 2, 2, "hddd"); (5, 2, 2, 3, "hddf"); (5, 2, 2, 4, "hddg");
    (5, 2, 2, 5, "hddh"); (5, 2, 3, 0, "hdfs"); (5, 2, 3, 1, "hdfp"); (5, 2, 3, 2, "hdfd");
    (5, 2, 3, 3, "hdff"); (5, 2, 3, 4, "hdfg"); (5, 2, 3, 5, "hdfh"); (5, 2, 4, 0, "hdgs");
    (5, 2, 4, 1, "hdgp"); (5, 2, 4, 2, "hdgd"); (5, 2, 4, 3, "hdgf"); (5, 2, 4, 4, "hdgg");
    (5, 2, 4, 5, "hdgh"); (5, 2, 5, 0, "hdhs"); (5, 2, 5, 1, "hdhp"); (5, 2, 5, 2, "hdhd");
    (5, 2, 5, 3, "hdhf"); (5, 2, 5, 4, "hdhg"); (5, 2, 5, 5, "hdhh"); (5, 3, 0, 0, "hfss");
    (5, 3, 0, 1, "hfsp"); (5, 3, 0, 2, "hfsd"); (5, 3, 0, 3, "hfsf"); (5, 3, 0, 4, "hfsg");
    (5, 3, 0, 5, "hfsh"); (5, 3, 1, 0, "hfps"); (5, 3, 1, 1, "hfpp"); (5, 3, 1, 2, "hfpd");
    (5, 3, 1, 3, "hfpf"); (5, 3, 1, 4, "hfpg"); (5, 3, 1, 5, "hfph"); (5, 3, 2, 0, "hfds");
    (5, 3, 2, 1, "hfdp"); (5, 3, 2, 2, "hfdd"); (5, 3, 2, 3, "hfdf"); (5, 3, 2, 4, "hfdg");
    (5, 3, 2, 5, "hfdh"); (5, 3, 3, 0, "hffs"); (5, 3, 3, 1, "hffp"); (5, 3, 3, 2, "hffd");
    (5, 3, 3, 3, "hfff"); (5, 3, 3, 4, "hffg"); (5, 3, 3, 5, "hffh"); (5, 3, 4, 0, "hfgs");
    (5, 3, 4, 1, "hfgp"); (5, 3, 4, 2, "hfgd"); (5, 3, 4, 3, "hfgf"); (5, 3, 4, 4, "hfgg");
    (5, 3, 4, 5, "hfgh"); (5, 3, 5, 0, "hfhs"); (5, 3, 5, 1, "hfhp"); (5, 3, 5, 2, "hfhd");
    (5, 3, 5, 3, "hfhf"); (5, 3, 5, 4, "hfhg"); (5, 3, 5, 5, "hfhh"); (5, 4, 0, 0, "hgss");
    (5, 4, 0, 1, "hgsp"); (5, 4, 0, 2, "hgsd"); (5, 4, 0, 3, "hgsf"); (5, 4, 0, 4, "hgsg");
    (5, 4, 0, 5, "hgsh"); (5, 4, 1, 0, "hgps"); (5, 4, 1, 1, "hgpp"); (5, 4, 1, 2, "hgpd");
    (5, 4, 1, 3, "hgpf"); (5, 4, 1, 4, "hgpg"); (5, 4, 1, 5, "hgph"); (5, 4, 2, 0, "hgds");
    (5, 4, 2, 1, "hgdp"); (5, 4, 2, 2, "hgdd"); (5, 4, 2, 3, "hgdf"); (5, 4, 2, 4, "hgdg");
    (5, 4, 2, 5, "hgdh"); (5, 4, 3, 0, "hgfs"); (5, 4, 3, 1, "hgfp"); (5, 4, 3, 2, "hgfd");
    (5, 4, 3, 3, "hgff"); (5, 4, 3, 4, "hgfg"); (5, 4, 3, 5, "hgfh"); (5, 4, 4, 0, "hggs");
    (5, 4, 4, 1, "hggp"); (5, 4, 4, 2, "hggd"); (5, 4, 4, 3, "hggf"); (5, 4, 4, 4, "hggg");
    (5, 4, 4, 5, "hggh"); (5, 4, 5, 0, "hghs"); (5, 4, 5, 1, "hghp"); (5, 4, 5, 2, "hghd");
    (5, 4, 5, 3, "hghf"); (5, 4, 5, 4, "hghg"); (5, 4, 5, 5, "hghh"); (5, 5, 0, 0, "hhss");
    (5, 5, 0, 1, "hhsp"); (5, 5, 0, 2, "hhsd"); (5, 5, 0, 3, "hhsf"); (5, 5, 0, 4, "hhsg");
    (5, 5, 0, 5, "hhsh"); (5, 5, 1, 0, "hhps"); (5, 5, 1, 1, "hhpp"); (5, 5, 1, 2, "hhpd");
    (5, 5, 1, 3, "hhpf"); (5, 5, 1, 4, "hhpg"); (5, 5, 1, 5, "hhph"); (5, 5, 2, 0, "hhds");
    (5, 5, 2, 1, "hhdp"); (5, 5, 2, 2, "hhdd"); (5, 5, 2, 3, "hhdf"); (5, 5, 2, 4, "hhdg");
    (5, 5, 2, 5, "hhdh"); (5, 5, 3, 0, "hhfs"); (5, 5, 3, 1, "hhfp"); (5, 5, 3, 2, "hhfd");
    (5, 5, 3, 3, "hhff"); (5, 5, 3, 4, "hhfg"); (5, 5, 3, 5, "hhfh"); (5, 5, 4, 0, "hhgs");
    (5, 5, 4, 1, "hhgp"); (5, 5, 4, 2, "hhgd"); (5, 5, 4, 3, "hhgf"); (5, 5, 4, 4, "hhgg");
    (5, 5, 4, 5, "hhgh"); (5, 5, 5, 0, "hhhs"); (5, 5, 5, 1, "hhhp"); (5, 5, 5, 2, "hhhd");
    (5, 5, 5, 3, "hhhf"); (5, 5, 5, 4, "hhhg"); (5, 5, 5, 5, "hhhh")]);
   (6, [(0, 0, 0, 6, "sssi"); (0, 0, 1, 6, "sspi"); (0, 0, 2, 6, "ssdi"); (0, 0, 3, 6, "ssfi");
    (0, 0, 4, 6, "ssgi"); (0, 0, 5, 6, "sshi"); (0, 0, 6, 0, "ssis"); (0, 0, 6, 1, "ssip");
    (0, 0, 6, 2, "ssid"); (0, 0, 6, 3, "ssif"); (0, 0, 6, 4, "ssig"); (0, 0, 6, 5, "ssih");
    (0, 0, 6, 6, "ssii"); (0, 1, 0, 6, "spsi"); (0, 1, 1, 6, "sppi"); (0, 1, 2, 6, "spdi");
    (0, 1, 3, 6, "spfi"); (0, 1, 4, 6, "spgi"); (0, 1, 5, 6, "sphi"); (0, 1, 6, 0, "spis");
    (0, 1, 6, 1, "spip"); (0, 1, 6, 2, "spid"); (0, 1, 6, 3, "spif"); (0, 1, 6, 4, "spig");
    (0, 1, 6, 5, "spih"); (0, 1, 6, 6, "spii"); (0, 2, 0, 6, "sdsi"); (0, 2, 1, 6, "sdpi");
    (0, 2, 2, 6, "sddi"); (0, 2, 3, 6, "sdfi"); (0, 2, 4, 6, "sdgi"); (0, 2, 5, 6, "sdhi");
    (0, 2, 6, 0, "sdis"); (0, 2, 6, 1, "sdip"); (0, 2, 6, 2, "sdid"); (0, 2, 6, 3, "sdif");
    (0, 2, 6, 4, "sdig"); (0, 2, 6, 5, "sdih"); (0, 2, 6, 6, "sdii"); (0, 3, 0, 6, "sfsi");
    (0, 3, 1, 6, "sfpi"); (0, 3, 2, 6, "sfdi"); (0, 3, 3, 6, "sffi"); (0, 3, 4, 6, "sfgi");
    (0, 3, 5, 6, "sfhi"); (0, 3, 6, 0, "sfis"); (0, 3, 6, 1, "sfip"); (0, 3, 6, 2, "sfid");
    (0, 3, 6, 3, "sfif"); (0, 3, 6, 4, "sfig"); (0, 3, 6, 5, "sfih"); (0, 3, 6, 6, "sfii");
    (0, 4, 0, 6, "sgsi"); (0, 4, 1, 6, "sgpi"); (0, 4, 2, 6, "sgdi"); (0, 4, 3, 6, "sgfi");
    (0, 4, 4, 6, "sggi"); (0, 4, 5, 6, "sghi"); (0, 4, 6, 0, "sgis"); (0, 4, 6, 1, "sgip");
    (0, 4, 6, 2, "sgid"); (0, 4, 6, 3, "sgif"); (0, 4, 6, 4, "sgig"); (0, 4, 6, 5, "sgih");
    (0, 4, 6, 6, "sgii"); (0, 5, 0, 6, "shsi"); (0, 5, 1, 6, "shpi"); (0, 5, 2, 6, "shdi");
    (0, 5, 3, 6, "shfi"); (0, 5, 4, 6, "shgi"); (0, 5, 5, 6, "shhi"); (0, 5, 6, 0, "shis");
    (0, 5, 6, 1, "ship"); (0, 5, 6, 2, "shid"); (0, 5, 6, 3, "shif"); (0, 5, 6, 4, "shig");
    (0, 5, 6, 5, "shih"); (0, 5, 6, 6, "shii"); (0, 6, 0, 0, "siss"); (0, 6, 0, 1, "sisp");
    (0, 6, 0, 2, "sisd"); (0, 6, 0, 3, "sisf"); (0, 6, 0, 4, "sisg"); (0, 6, 0, 5, "sish");
    (0, 6, 0, 6, "sisi"); (0, 6, 1, 0, "sips"); (0, 6, 1, 1, "sipp"); (0, 6, 1, 2, "sipd");
    (0, 6, 1, 3, "sipf"); (0, 6, 1, 4, "sipg"); (0, 6, 1, 5, "siph"); (0, 6, 1, 6, "sipi");
    (0, 6, 2, 0, "sids"); (0, 6, 2, 1, "sidp"); (0, 6, 2, 2, "sidd"); (0, 6, 2, 3, "sidf");
    (0, 6, 2, 4, "sidg"); (0, 6, 2, 5, "sidh"); (0, 6, 2, 6, "sidi"); (0, 6, 3, 0, "sifs");
    (0, 6, 3, 1, "sifp"); (0, 6, 3, 2, "sifd"); (0, 6, 3, 3, "siff"); (0, 6, 3, 4, "sifg");
    (0, 6, 3, 5, "sifh"); (0, 6, 3, 6, "sifi"); (0, 6, 4, 0, "sigs"); (0, 6, 4, 1, "sigp");
    (0, 6, 4, 2, "sigd"); (0, 6, 4, 3, "sigf"); (0, 6, 4, 4, "sigg"); (0, 6, 4, 5, "sigh");
    (0, 6, 4, 6, "sigi"); (0, 6, 5, 0, "sihs"); (0, 6, 5, 1, "sihp"); (0, 6, 5, 2, "sihd");
    (0, 6, 5, 3, "sihf"); (0, 6, 5, 4, "sihg"); (0, 6, 5, 5, "sihh"); (0, 6, 5, 6, "sihi");
    (0, 6, 6, 0, "siis"); (0, 6, 6, 1, "siip"); (0, 6, 6, 2, "siid"); (0, 6, 6, 3, "siif");
    (0, 6, 6, 4, "siig"); (0, 6, 6, 5, "siih"); (0, 6, 6, 6, "siii"); (1, 0, 0, 6, "pssi");
    (1, 0, 1, 6, "pspi"); (1, 0, 2, 6, "psdi"); (1, 0, 3, 6, "psfi"); (1, 0, 4, 6, "psgi");
    (1, 0, 5, 6, "pshi"); (1, 0, 6, 0, "psis"); (1, 0, 6, 1, "psip"); (1, 0, 6, 2, "psid");
    (1, 0, 6, 3, "psif"); (1, 0, 6, 4, "psig"); (1, 0, 6, 5, "psih"); (1, 0, 6, 6, "psii");
    (1, 1, 0, 6, "ppsi"); (1, 1, 1, 6, "pppi"); (1, 1, 2, 6, "ppdi"); (1, 1, 3, 6, "ppfi");
    (1, 1, 4, 6, "ppgi"); (1, 1, 5, 6, "pphi"); (1, 1, 6, 0, "ppis"); (1, 1, 6, 1, "ppip");
    (1, 1, 6, 2, "ppid"); (1, 1, 6, 3, "ppif"); (1, 1, 6, 4, "ppig"); (1, 1, 6, 5, "ppih");
    (1, 1, 6, 6, "ppii"); (1, 2, 0, 6, "pdsi"); (1, 2, 1, 6, "pdpi"); (1, 2, 2, 6, "pddi");
    (1, 2, 3, 6, "pdfi"); (1, 2, 4, 6, "pdgi"); (1, 2, 5, 6, "pdhi"); (1, 2, 6, 0, "pdis");
    (1, 2, 6, 1, "pdip"); (1, 2, 6, 2, "pdid"); (1, 2, 6, 3, "pdif"); (1, 2, 6, 4, "pdig");
    (1, 2, 6, 5, "pdih"); (1, 2, 6, 6, "pdii"); (1, 3, 0, 6, "pfsi"); (1, 3, 1, 6, "pfpi");
    (1, 3, 2, 6, "pfdi"); (1, 3, 3, 6, "pffi"); (1, 3, 4, 6, "pfgi"); (1, 3, 5, 6, "pfhi");
    (1, 3, 6, 0, "pfis"); (1, 3, 6, 1, "pfip"); (1, 3, 6, 2, "pfid"); (1, 3, 6, 3, "pfif");
    (1, 3, 6, 4, "pfig"); (1, 3, 6, 5, "pfih"); (1, 3, 6, 6, "pfii"); (1, 4, 0, 6, "pgsi");
    (1, 4, 1, 6, "pgpi"); (1, 4, 2, 6, "pgdi"); (1, 4, 3, 6, "pgfi"); (1, 4, 4, 6, "pggi");
    (1, 4, 5, 6, "pghi"); (1, 4, 6, 0, "pgis"); (1, 4, 6, 1, "pgip"); (1, 4, 6, 2, "pgid");
    (1, 4, 6, 3, "pgif"); (1, 4, 6, 4, "pgig"); (1, 4, 6, 5, "pgih"); (1, 4, 6, 6, "pgii");
    (1, 5, 0, 6, "phsi"); (1, 5, 1, 6, "phpi"); (1, 5, 2, 6, "phdi"); (1, 5, 3, 6, "phfi");
    (1, 5, 4, 6, "phgi"); (1, 5, 5, 6, "phhi"); (1, 5, 6, 0, "phis"); (1, 5, 6, 1, "phip");
    (1, 5, 6, 2, "phid"); (1, 5, 6, 3, "phif"); (1, 5, 6, 4, "phig"); (1, 5, 6, 5, "phih");
    (1, 5, 6, 6, "phii"); (1, 6, 0, 0, "piss"); (1, 6, 0, 1, "pisp"); (1, 6, 0, 2, "pisd");
    (1, 6, 0, 3, "pisf"); (1, 6, 0, 4, "pisg"); (1, 6, 0, 5, "pish"); (1, 6, 0, 6, "pisi");
    (1, 6, 1, 0, "pips"); (1, 6, 1, 1, "pipp"); (1, 6, 1, 2, "pipd"); (1, 6, 1, 3, "pipf");
    (1, 6, 1, 4, "pipg"); (1, 6, 1, 5, "piph"); (1, 6, 1, 6, "pipi"); (1, 6, 2, 0, "pids");
    (1, 6, 2, 1, "pidp"); (1, 6, 2, 2, "pidd"); (1, 6, 2, 3, "pidf"); (1, 6, 2, 4, "pidg");
    (1, 6, 2, 5, "pidh"); (1, 6, 2, 6, "pidi"); (1, 6, 3, 0, "pifs"); (1, 6, 3, 1, "pifp");
    (1, 6, 3, 2, "pifd"); (1, 6, 3, 3, "piff"); (1, 6, 3, 4, "pifg"); (1, 6, 3, 5, "pifh");
    (1, 6, 3, 6, "pifi"); (1, 6, 4, 0, "pigs"); (1, 6, 4, 1, "pigp"); (1, 6, 4, 2, "pigd");
    (1, 6, 4, 3, "pigf"); (1, 6, 4, 4, "pigg"); (1, 6, 4, 5, "pigh"); (1, 6, 4, 6, "pigi");
    (1, 6, 5, 0, "pihs"); (1, 6, 5, 1, "pihp"); (1, 6, 5, 2, "pihd"); (1, 6, 5, 3, "pihf");
    (1, 6, 5, 4, "pihg"); (1, 6, 5, 5, "pihh"); (1, 6, 5, 6, "pihi"); (1, 6, 6, 0, "piis");
    (1, 6, 6, 1, "piip"); (1, 6, 6, 2, "piid"); (1, 6, 6, 3, "piif"); (1, 6, 6, 4, "piig");
    (1, 6, 6, 5, "piih"); (1, 6, 6, 6, "piii"); (2, 0, 0, 6, "dssi"); (2, 0, 1, 6, "dspi");
    (2, 0, 2, 6, "dsdi"); (2, 0, 3, 6, "dsfi"); (2, 0, 4, 6, "dsgi"); (2, 0, 5, 6, "dshi");
    (2, 0, 6, 0, "dsis"); (2, 0, 6, 1, "dsip"); (2, 0, 6, 2, "dsid"); (2, 0, 6, 3, "dsif");
    (2, 0, 6, 4, "dsig"); (2, 0, 6, 5, "dsih"); (2, 0, 6, 6, "dsii"); (2, 1, 0, 6, "dpsi");
    (2, 1, 1, 6, "dppi"); (2, 1, 2, 6, "dpdi"); (2, 1, 3, 6, "dpfi"); (2, 1, 4, 6, "dpgi");
    (2, 1, 5, 6, "dphi"); (2, 1, 6, 0, "dpis"); (2, 1, 6, 1, "dpip"); (2, 1, 6, 2, "dpid");
    (2, 1, 6, 3, "dpif"); (2, 1, 6, 4, "dpig"); (2, 1, 6, 5, "dpih"); (2, 1, 6, 6, "dpii");
    (2, 2, 0, 6, "ddsi"); (2, 2, 1, 6, "ddpi"); (2, 2, 2, 6, "dddi"); (2, 2, 3, 6, "ddfi");
    (2, 2, 4, 6, "ddgi"); (2, 2, 5, 6, "ddhi"); (2, 2, 6, 0, "ddis"); (2, 2, 6, 1, "ddip");
    (2, 2, 6, 2, "ddid"); (2, 2, 6, 3, "ddif"); (2, 2, 6, 4, "ddig"); (2, 2, 6, 5, "ddih");
    (2, 2, 6, 6, "ddii"); (2, 3, 0, 6, "dfsi"); (2, 3, 1, 6, "dfpi"); (2, 3, 2, 6, "dfdi");
    (2, 3, 3, 6, "dffi"); (2, 3, 4, 6, "dfgi"); (2, 3, 5, 6, "dfhi"); (2, 3, 6, 0, "dfis");
    (2, 3, 6, 1, "dfip"); (2, 3, 6, 2, "dfid"); (2, 3, 6, 3, "dfif"); (2, 3, 6, 4, "dfig");
    (2, 3, 6, 5, "dfih"); (2, 3, 6, 6, "dfii"); (2, 4, 0, 6, "dgsi"); (2, 4, 1, 6, "dgpi");
    (2, 4, 2, 6, "dgdi"); (2, 4, 3, 6, "dgfi"); (2, 4, 4, 6, "dggi"); (2, 4, 5, 6, "dghi");
    (2, 4, 6, 0, "dgis"); (2, 4, 6, 1, "dgip"); (2, 4, 6, 2, "dgid"); (2, 4, 6, 3, "dgif");
    (2, 4, 6, 4, "dgig"); (2, 4, 6, 5, "dgih"); (2, 4, 6, 6, "dgii"); (2, 5, 0, 6, "dhsi");
    (2, 5, 1, 6, "dhpi"); (2, 5, 2, 6, "dhdi"); (2, 5, 3, 6, "dhfi"); (2, 5, 4, 6, "dhgi");
    (2, 5, 5, 6, "dhhi"); (2, 5, 6, 0, "dhis"); (2, 5, 6, 1, "dhip"); (2, 5, 6, 2, "dhid");
    (2, 5, 6, 3, "dhif"); (2, 5, 6, 4, "dhig"); (2, 5, 6, 5, "dhih"); (2, 5, 6, 6, "dhii");
    (2, 6, 0, 0, "diss"); (2, 6, 0, 1, "disp"); (2, 6, 0, 2, "disd"); (2, 6, 0, 3, "disf");
    (2, 6, 0, 4, "disg"); (2, 6, 0, 5, "dish"); (2, 6, 0, 6, "disi"); (2, 6, 1, 0, "dips");
    (2, 6, 1, 1, "dipp"); (2, 6, 1, 2, "dipd"); (2, 6, 1, 3, "dipf"); (2, 6, 1, 4, "dipg");
    (2, 6, 1, 5, "diph"); (2, 6, 1, 6, "dipi"); (2, 6, 2, 0, "dids"); (2, 6, 2, 1, "didp");
    (2, 6, 2, 2, "didd"); (2, 6, 2, 3, "didf"); (2, 6, 2, 4, "didg"); (2, 6, 2, 5, "didh");
    (2, 6, 2, 6, "didi"); (2, 6, 3, 0, "difs"); (2, 6, 3, 1, "difp"); (2, 6, 3, 2, "difd");
    (2, 6, 3, 3, "diff"); (2, 6, 3, 4, "difg"); (2, 6, 3, 5, "difh"); (2, 6, 3, 6, "difi");
    (2, 6, 4, 0, "digs"); (2, 6, 4, 1, "digp"); (2, 6, 4, 2, "digd"); (2, 6, 4, 3, "digf");
    (2, 6, 4, 4, "digg"); (2, 6, 4, 5, "digh"); (2, 6, 4, 6, "digi"); (2, 6, 5, 0, "dihs");
    (2, 6, 5, 1, "dihp"); (2, 6, 5, 2, "dihd"); (2, 6, 5, 3, "dihf"); (2, 6, 5, 4, "dihg");
    (2, 6, 5, 5, "dihh"); (2, 6, 5, 6, "dihi"); (2, 6, 6, 0, "diis"); (2, 6, 6, 1, "diip");
    (2, 6, 6, 2, "diid"); (2, 6, 6, 3, "diif"); (2, 6, 6, 4, "diig"); (2, 6, 6, 5, "diih");
    (2, 6, 6, 6, "diii"); (3, 0, 0, 6, "fssi"); (3, 0, 1, 6, "fspi"); (3, 0, 2, 6, "fsdi");
    (3, 0, 3, 6, "fsfi"); (3, 0, 4, 6, "fsgi"); (3, 0, 5, 6, "fshi"); (3, 0, 6, 0, "fsis");
    (3, 0, 6, 1, "fsip"); (3, 0, 6, 2, "fsid"); (3, 0, 6, 3, "fsif"); (3, 0, 6, 4, "fsig");
    (3, 0, 6, 5, "fsih"); (3, 0, 6, 6, "fsii"); (3, 1, 0, 6, "fpsi"); (3, 1, 1, 6, "fppi");
    (3, 1, 2, 6, "fpdi"); (3, 1, 3, 6, "fpfi"); (3, 1, 4, 6, "fpgi"); (3, 1, 5, 6, "fphi");
    (3, 1, 6, 0, "fpis"); (3, 1, 6, 1, "fpip"); (3, 1, 6, 2, "fpid"); (3, 1, 6, 3, "fpif");
    (3, 1, 6, 4, "fpig"); (3, 1, 6, 5, "fpih"); (3, 1, 6, 6, "fpii"); (3, 2, 0, 6, "fdsi");
    (3, 2, 1, 6, "fdpi"); (3, 2, 2, 6, "fddi"); (3, 2, 3, 6, "fdfi"); (3, 2, 4, 6, "fdgi");
    (3, 2, 5, 6, "fdhi"); (3, 2, 6, 0, "fdis"); (3, 2, 6, 1, "fdip"); (3, 2, 6, 2, "fdid");
    (3, 2, 6, 3, "fdif"); (3, 2, 6, 4, "fdig"); (3, 2, 6, 5, "fdih"); (3, 2, 6, 6, "fdii");
    (3, 3, 0, 6, "ffsi"); (3, 3, 1, 6, "ffpi"); (3, 3, 2, 6, "ffdi"); (3, 3, 3, 6, "fffi");
    (3, 3, 4, 6, "ffgi"); (3, 3, 5, 6, "ffhi"); (3, 3, 6, 0, "ffis"); (3, 3, 6, 1, "ffip");
    (3, 3, 6, 2, "ffid"); (3, 3, 6, 3, "ffif"); (3, 3, 6, 4, "ffig"); (3, 3, 6, 5, "ffih");
    (3, 3, 6, 6, "ffii"); (3, 4, 0, 6, "fgsi"); (3, 4, 1, 6, "fgpi"); (3, 4, 2, 6, "fgdi");
    (3, 4, 3, 6, "fgfi"); (3, 4, 4, 6, "fggi"); (3, 4, 5, 6, "fghi"); (3, 4, 6, 0, "fgis");
    (3, 4, 6, 1, "fgip"); (3, 4, 6, 2, "fgid"); (3, 4, 6, 3, "fgif"); (3, 4, 6, 4, "fgig");
    (3, 4, 6, 5, "fgih"); (3, 4, 6, 6, "fgii"); (3, 5, 0, 6, "fhsi"); (3, 5, 1, 6, "fhpi");
    (3, 5, 2, 6, "fhdi"); (3, 5, 3, 6, "fhfi"); (3, 5, 4, 6, "fhgi"); (3, 5, 5, 6, "fhhi");
    (3, 5, 6, 0, "fhis"); (3, 5, 6, 1, "fhip"); (3, 5, 6, 2, "fhid"); (3, 5, 6, 3, "fhif");
    (3, 5, 6, 4, "fhig"); (3, 5, 6, 5, "fhih"); (3, 5, 6, 6, "fhii"); (3, 6, 0, 0, "fiss");
    (3, 6, 0, 1, "fisp"); (3, 6, 0, 2, "fisd"); (3, 6, 0, 3, "fisf"); (3, 6, 0, 4, "fisg");
    (3, 6, 0, 5, "fish"); (3, 6, 0, 6, "fisi"); (3, 6, 1, 0, "fips"); (3, 6, 1, 1, "fipp");
    (3, 6, 1, 2, "fipd"); (3, 6, 1, 3, "fipf"); (3, 6, 1, 4, "fipg"); (3, 6, 1, 5, "fiph");
    (3, 6, 1, 6, "fipi"); (3, 6, 2, 0, "fids"); (3, 6, 2, 1, "fidp"); (3, 6, 2, 2, "fidd");
    (3, 6, 2, 3, "fidf"); (3, 6, 2, 4, "fidg"); (3, 6, 2, 5, "fidh"); (3, 6, 2, 6, "fidi");
    (3, 6, 3, 0, "fifs"); (3, 6, 3, 1, "fifp"); (3, 6, 3, 2, "fifd"); (3, 6, 3, 3, "fiff");
    (3, 6, 3, 4, "fifg"); (3, 6, 3, 5, "fifh"); (3, 6, 3, 6, "fifi"); (3, 6, 4, 0, "figs");
    (3, 6, 4, 1, "figp"); (3, 6, 4, 2, "figd"); (3, 6, 4, 3, "figf"); (3, 6, 4, 4, "figg");
    (3, 6, 4, 5, "figh"); (3, 6, 4, 6, "figi"); (3, 6, 5, 0, "fihs"); (3, 6, 5, 1, "fihp");
    (3, 6, 5, 2, "fihd"); (3, 6, 5, 3, "fihf"); (3, 6, 5, 4, "fihg"); (3, 6, 5, 5, "fihh");
    (3, 6, 5, 6, "fihi"); (3, 6, 6, 0, "fiis"); (3, 6, 6, 1, "fiip"); (3, 6, 6, 2, "fiid");
    (3, 6, 6, 3, "fiif"); (3, 6, 6, 4, "fiig"); (3, 6, 6, 5, "fiih"); (3, 6, 6, 6, "fiii");
    (4, 0, 0, 6, "gssi"); (4, 0, 1, 6, "gspi"); (4, 0, 2, 6, "gsdi"); (4, 0, 3, 6, "gsfi");
    (4, 0, 4, 6, "gsgi"); (4, 0, 5, 6, "gshi"); (4, 0, 6, 0, "gsis"); (4, 0, 6, 1, "gsip");
    (4, 0, 6, 2, "gsid"); (4, 0, 6, 3, "gsif"); (4, 0, 6, 4, "gsig"); (4, 0, 6, 5, "gsih");
    (4, 0, 6, 6, "gsii"); (4, 1, 0, 6, "gpsi"); (4, 1, 1, 6, "gppi"); (4, 1, 2, 6, "gpdi");
    (4, 1, 3, 6, "gpfi"); (4, 1, 4, 6, "gpgi"); (4, 1, 5, 6, "gphi"); (4, 1, 6, 0, "gpis");
    (4, 1, 6, 1, "gpip"); (4, 1, 6, 2, "gpid"); (4, 1, 6, 3, "gpif"); (4, 1, 6, 4, "gpig");
    (4, 1, 6, 5, "gpih"); (4, 1, 6, 6, "gpii"); (4, 2, 0, 6, "gdsi"); (4, 2, 1, 6, "gdpi");
    (4, 2, 2, 6, "gddi"); (4, 2, 3, 6, "gdfi"); (4, 2, 4, 6, "gdgi"); (4, 2, 5, 6, "gdhi");
    (4, 2, 6, 0, "gdis"); (4, 2, 6, 1, "gdip"); (4, 2, 6, 2, "gdid"); (4, 2, 6, 3, "gdif");
    (4, 2, 6, 4, "gdig"); (4, 2, 6, 5, "gdih"); (4, 2, 6, 6, "gdii"); (4, 3, 0, 6, "gfsi");
    (4, 3, 1, 6, "gfpi"); (4, 3, 2, 6, "gfdi"); (4, 3, 3, 6, "gffi"); (4, 3, 4, 6, "gfgi");
    (4, 3, 5, 6, "gfhi"); (4, 3, 6, 0, "gfis"); (4, 3, 6, 1, "gfip"); (4, 3, 6, 2, "gfid");
    (4, 3, 6, 3, "gfif"); (4, 3, 6, 4, "gfig"); (4, 3, 6, 5, "gfih"); (4, 3, 6, 6, "gfii");
    (4, 4, 0, 6, "ggsi"); (4, 4, 1, 6, "ggpi"); (4, 4, 2, 6, "ggdi"); (4, 4, 3, 6, "ggfi");
    (4, 4, 4, 6, "gggi"); (4, 4, 5, 6, "gghi"); (4, 4, 6, 0, "ggis"); (4, 4, 6, 1, "ggip");
    (4, 4, 6, 2, "ggid"); (4, 4, 6, 3, "ggif"); (4, 4, 6, 4, "ggig"); (4, 4, 6, 5, "ggih");
    (4, 4, 6, 6, "ggii"); (4, 5, 0, 6, "ghsi"); (4, 5, 1, 6, "ghpi"); (4, 5, 2, 6, "ghdi");
    (4, 5, 3, 6, "ghfi"); (4, 5, 4, 6, "ghgi"); (4, 5, 5, 6, "ghhi"); (4, 5, 6, 0, "ghis");
    (4, 5, 6, 1, "ghip"); (4, 5, 6, 2, "ghid"); (4, 5, 6, 3, "ghif"); (4, 5, 6, 4, "ghig");
    (4, 5, 6, 5, "ghih"); (4, 5, 6, 6, "ghii"); (4, 6, 0, 0, "giss"); (4, 6, 0, 1, "gisp");
    (4, 6, 0, 2, "gisd"); (4, 6, 0, 3, "gisf"); (4, 6, 0, 4, "gisg"); (4, 6, 0, 5, "gish");
    (4, 6, 0, 6, "gisi"); (4, 6, 1, 0, "gips"); (4, 6, 1, 1, "gipp"); (4, 6, 1, 2, "gipd");
    (4, 6, 1, 3, "gipf"); (4, 6, 1, 4, "gipg"); (4, 6, 1, 5, "giph"); (4, 6, 1, 6, "gipi");
    (4, 6, 2, 0, "gids"); (4, 6, 2, 1, "gidp"); (4, 6, 2, 2, "gidd"); (4, 6, 2, 3, "gidf");
    (4, 6, 2, 4, "gidg"); (4, 6, 2, 5, "gidh"); (4, 6, 2, 6, "gidi"); (4, 6, 3, 0, "gifs");
    (4, 6, 3, 1, "gifp"); (4, 6, 3, 2, "gifd"); (4, 6, 3, 3, "giff"); (4, 6, 3, 4, "gifg");
    (4, 6, 3, 5, "gifh"); (4, 6, 3, 6, "gifi"); (4, 6, 4, 0, "gigs"); (4, 6, 4, 1, "gigp");
    (4, 6, 4, 2, "gigd"); (4, 6, 4, 3, "gigf"); (4, 6, 4, 4, "gigg"); (4, 6, 4, 5, "gigh");
    (4, 6, 4, 6, "gigi"); (4, 6, 5, 0, "gihs"); (4, 6, 5, 1, "gihp"); (4, 6, 5, 2, "gihd");
    (4, 6, 5, 3, "gihf"); (4, 6, 5, 4, "gihg"); (4, 6, 5, 5, "gihh"); (4, 6, 5, 6, "gihi");
    (4, 6, 6, 0, "giis"); (4, 6, 6, 1, "giip"); (4, 6, 6, 2, "giid"); (4, 6, 6, 3, "giif");
    (4, 6, 6, 4, "giig"); (4, 6, 6, 5, "giih"); (4, 6, 6, 6, "giii"); (5, 0, 0, 6, "hssi");
    (5, 0, 1, 6, "hspi"); (5, 0, 2, 6, "hsdi"); (5, 0, 3, 6, "hsfi"); (5, 0, 4, 6, "hsgi");
    (5, 0, 5, 6, "hshi"); (5, 0, 6, 0, "hsis"); (5, 0, 6, 1, "hsip"); (5, 0, 6, 2, "hsid");
    (5, 0, 6, 3, "hsif"); (5, 0, 6, 4, "hsig"); (5, 0, 6, 5, "hsih"); (5, 0, 6, 6, "hsii");
    (5, 1, 0, 6, "hpsi"); (5, 1, 1, 6, "hppi"); (5, 1, 2, 6, "hpdi"); (5, 1, 3, 6, "hpfi");
    (5, 1, 4, 6, "hpgi"); (5, 1, 5, 6, "hphi"); (5, 1, 6, 0, "hpis"); (5, 1, 6, 1, "hpip");
    (5, 1, 6, 2, "hpid"); (5, 1, 6, 3, "hpif"); (5, 1, 6, 4, "hpig"); (5, 1, 6, 5, "hpih");
    (5, 1, 6, 6, "hpii"); (5, 2, 0, 6, "hdsi"); (5, 2, 1, 6, "hdpi"); (5, 2, 2, 6, "hddi");
    (5, 2, 3, 6, "hdfi"); (5, 2, 4, 6, "hdgi"); (5, 2, 5, 6, "hdhi"); (5, 2, 6, 0, "hdis");
    (5, 2, 6, 1, "hdip"); (5, 2, 6, 2, "hdid"); (5, 2, 6, 3, "hdif"); (5, 2, 6, 4, "hdig");
    (5, 2, 6, 5, "hdih"); (5, 2, 6, 6, "hdii"); (5, 3, 0, 6, "hfsi"); (5, 3, 1, 6, "hfpi");
    (5, 3, 2, 6, "hfdi"); (5, 3, 3, 6, "hffi"); (5, 3, 4, 6, "hfgi"); (5, 3, 5, 6, "hfhi");
    (5, 3, 6, 0, "hfis"); (5, 3, 6, 1, "hfip"); (5, 3, 6, 2, "hfid"); (5, 3, 6, 3, "hfif");
    (5, 3, 6, 4, "hfig"); (5, 3, 6, 5, "hfih"); (5, 3, 6, 6, "hfii"); (5, 4, 0, 6, "hgsi");
    (5, 4, 1, 6, "hgpi"); (5, 4, 2, 6, "hgdi"); (5, 4, 3, 6, "hgfi"); (5, 4, 4, 6, "hggi");
    (5, 4, 5, 6, "hghi"); (5, 4, 6, 0, "hgis"); (5, 4, 6, 1, "hgip"); (5, 4, 6, 2, "hgid");
    (5, 4, 6, 3, "hgif"); (5, 4, 6, 4, "hgig"); (5, 4, 6, 5, "hgih"); (5, 4, 6, 6, "hgii");
    (5, 5, 0, 6, "hhsi"); (5, 5, 1, 6, "hhpi"); (5, 5, 2, 6, "hhdi"); (5, 5, 3, 6, "hhfi");
    (5, 5, 4, 6, "hhgi"); (5, 5, 5, 6, "hhhi"); (5, 5, 6, 0, "hhis"); (5, 5, 6, 1, "hhip");
    (5, 5, 6, 2, "hhid"); (5, 5, 6, 3, "hhif"); (5, 5, 6, 4, "hhig"); (5, 5, 6, 5, "hhih");
    (5, 5, 6, 6, "hhii"); (5, 6, 0, 0, "hiss"); (5, 6, 0, 1, "hisp"); (5, 6, 0, 2, "hisd");
    (5, 6, 0, 3, "hisf"); (5, 6, 0, 4, "hisg"); (5, 6, 0, 5, "hish"); (5, 6, 0, 6, "hisi");
    (5, 6, 1, 0, "hips"); (5, 6, 1, 1, "hipp"); (5, 6, 1, 2, "hipd"); (5, 6, 1, 3, "hipf");
    (5, 6, 1, 4, "hipg"); (5, 6, 1, 5, "hiph"); (5, 6, 1, 6, "hipi"); (5, 6, 2, 0, "hids");
    (5, 6, 2, 1, "hidp"); (5, 6, 2, 2, "hidd"); (5, 6, 2, 3, "hidf"); (5, 6, 2, 4, "hidg");
    (5, 6, 2, 5, "hidh"); (5, 6, 2, 6, "hidi"); (5, 6, 3, 0, "hifs"); (5, 6, 3, 1, "hifp");
    (5, 6, 3, 2, "hifd"); (5, 6, 3, 3, "hiff"); (5, 6, 3, 4, "hifg"); (5, 6, 3, 5, "hifh");
    (5, 6, 3, 6, "hifi"); (5, 6, 4, 0, "higs"); (5, 6, 4, 1, "higp"); (5, 6, 4, 2, "higd");
    (5, 6, 4, 3, "higf"); (5, 6, 4, 4, "higg"); (5, 6, 4, 5, "high"); (5, 6, 4, 6, "higi");
    (5, 6, 5, 0, "hihs"); (5, 6, 5, 1, "hihp"); (5, 6, 5, 2, "hihd"); (5, 6, 5, 3, "hihf");
    (5, 6, 5, 4, "hihg"); (5, 6, 5, 5, "hihh"); (5, 6, 5, 6, "hihi"); (5, 6, 6, 0, "hiis");
    (5, 6, 6, 1, "hiip"); (5, 6, 6, 2, "hiid"); (5, 6, 6, 3, "hiif"); (5, 6, 6, 4, "hiig");
    (5, 6, 6, 5, "hiih"); (5, 6, 6, 6, "hiii"); (6, 0, 0, 0, "isss"); (6, 0, 0, 1, "issp");
    (6, 0, 0, 2, "issd"); (6, 0, 0, 3, "issf"); (6, 0, 0, 4, "issg"); (6, 0, 0, 5, "issh");
    (6, 0, 0, 6, "issi"); (6, 0, 1, 0, "isps"); (6, 0, 1, 1, "ispp"); (6, 0, 1, 2, "ispd");
    (6, 0, 1, 3, "ispf"); (6, 0, 1, 4, "ispg"); (6, 0, 1, 5, "isph"); (6, 0, 1, 6, "ispi");
    (6, 0, 2, 0, "isds"); (6, 0, 2, 1, "isdp"); (6, 0, 2, 2, "isdd"); (6, 0, 2, 3, "isdf");
    (6, 0, 2, 4, "isdg"); (6, 0, 2, 5, "isdh"); (6, 0, 2, 6, "isdi"); (6, 0, 3, 0, "isfs");
    (6, 0, 3, 1, "isfp"); (6, 0, 3, 2, "isfd"); (6, 0, 3, 3, "isff"); (6, 0, 3, 4, "isfg");
    (6, 0, 3, 5, "isfh"); (6, 0, 3, 6, "isfi"); (6, 0, 4, 0, "isgs"); (6, 0, 4, 1, "isgp");
    (6, 0, 4, 2, "isgd"); (6, 0, 4, 3, "isgf"); (6, 0, 4, 4, "isgg"); (6, 0, 4, 5, "isgh");
    (6, 0, 4, 6, "isgi"); (6, 0, 5, 0, "ishs"); (6, 0, 5, 1, "ishp"); (6, 0, 5, 2, "ishd");
    (6, 0, 5, 3, "ishf"); (6, 0, 5, 4, "ishg"); (6, 0, 5, 5, "ishh"); (6, 0, 5, 6, "ishi");
    (6, 0, 6, 0, "isis"); (6, 0, 6, 1, "isip"); (6, 0, 6, 2, "isid"); (6, 0, 6, 3, "isif");
    (6, 0, 6, 4, "isig"); (6, 0, 6, 5, "isih"); (6, 0, 6, 6, "isii"); (6, 1, 0, 0, "ipss");
    (6, 1, 0, 1, "ipsp"); (6, 1, 0, 2, "ipsd"); (6, 1, 0, 3, "ipsf"); (6, 1, 0, 4, "ipsg");
    (6, 1, 0, 5, "ipsh"); (6, 1, 0, 6, "ipsi"); (6, 1, 1, 0, "ipps"); (6, 1, 1, 1, "ippp");
    (6, 1, 1, 2, "ippd"); (6, 1, 1, 3, "ippf"); (6, 1, 1, 4, "ippg"); (6, 1, 1, 5, "ipph");
    (6, 1, 1, 6, "ippi"); (6, 1, 2, 0, "ipds"); (6, 1, 2, 1, "ipdp"); (6, 1, 2, 2, "ipdd");
    (6, 1, 2, 3, "ipdf"); (6, 1, 2, 4, "ipdg"); (6, 1, 2, 5, "ipdh"); (6, 1, 2, 6, "ipdi");
    (6, 1, 3, 0, "ipfs"); (6, 1, 3, 1, "ipfp"); (6, 1, 3, 2, "ipfd"); (6, 1, 3, 3, "ipff");
    (6, 1, 3, 4, "ipfg"); (6, 1, 3, 5, "ipfh"); (6, 1, 3, 6, "ipfi"); (6, 1, 4, 0, "ipgs");
    (6, 1, 4, 1, "ipgp"); (6, 1, 4, 2, "ipgd"); (6, 1, 4, 3, "ipgf"); (6, 1, 4, 4, "ipgg");
    (6, 1, 4, 5, "ipgh"); (6, 1, 4, 6, "ipgi"); (6, 1, 5, 0, "iphs"); (6, 1, 5, 1, "iphp");
    (6, 1, 5, 2, "iphd"); (6, 1, 5, 3, "iphf"); (6, 1, 5, 4, "iphg"); (6, 1, 5, 5, "iphh");
    (6, 1, 5, 6, "iphi"); (6, 1, 6, 0, "ipis"); (6, 1, 6, 1, "ipip"); (6, 1, 6, 2, "ipid");
    (6, 1, 6, 3, "ipif"); (6, 1, 6, 4, "ipig"); (6, 1, 6, 5, "ipih"); (6, 1, 6, 6, "ipii");
    (6, 2, 0, 0, "idss"); (6, 2, 0, 1, "idsp"); (6, 2, 0, 2, "idsd"); (6, 2, 0, 3, "idsf");
    (6, 2, 0, 4, "idsg"); (6, 2, 0, 5, "idsh"); (6, 2, 0, 6, "idsi"); (6, 2, 1, 0, "idps");
    (6, 2, 1, 1, "idpp"); (6, 2, 1, 2, "idpd"); (6, 2, 1, 3, "idpf"); (6, 2, 1, 4, "idpg");
    (6, 2, 1, 5, "idph"); (6, 2, 1, 6, "idpi"); (6, 2, 2, 0, "idds"); (6, 2, 2, 1, "iddp");
    (6, 2, 2, 2, "iddd"); (6, 2, 2, 3, "iddf"); (6, 2, 2, 4, "iddg"); (6, 2, 2, 5, "iddh");
    (6, 2, 2, 6, "iddi"); (6, 2, 3, 0, "idfs"); (6, 2, 3, 1, "idfp"); (6, 2, 3, 2, "idfd");
    (6, 2, 3, 3, "idff"); (6, 2, 3, 4, "idfg"); (6, 2, 3, 5, "idfh"); (6, 2, 3, 6, "idfi");
    (6, 2, 4, 0, "idgs"); (6, 2, 4, 1, "idgp"); (6, 2, 4, 2, "idgd"); (6, 2, 4, 3, "idgf");
    (6, 2, 4, 4, "idgg"); (6, 2, 4, 5, "idgh"); (6, 2, 4, 6, "idgi"); (6, 2, 5, 0, "idhs");
    (6, 2, 5, 1, "idhp"); (6, 2, 5, 2, "idhd"); (6, 2, 5, 3, "idhf"); (6, 2, 5, 4, "idhg");
    (6, 2, 5, 5, "idhh"); (6, 2, 5, 6, "idhi"); (6, 2, 6, 0, "idis"); (6, 2, 6, 1, "idip");
    (6, 2, 6, 2, "idid"); (6, 2, 6, 3, "idif"); (6, 2, 6, 4, "idig"); (6, 2, 6, 5, "idih");
    (6, 2, 6, 6, "idii"); (6, 3, 0, 0, "ifss"); (6, 3, 0, 1, "ifsp"); (6, 3, 0, 2, "ifsd");
    (6, 3, 0, 3, "ifsf"); (6, 3, 0, 4, "ifsg"); (6, 3, 0, 5, "ifsh"); (6, 3, 0, 6, "ifsi");
    (6, 3, 1, 0, "ifps"); (6, 3, 1, 1, "ifpp"); (6, 3, 1, 2, "ifpd"); (6, 3, 1, 3, "ifpf");
    (6, 3, 1, 4, "ifpg"); (6, 3, 1, 5, "ifph"); (6, 3, 1, 6, "ifpi"); (6, 3, 2, 0, "ifds");
    (6, 3, 2, 1, "ifdp"); (6, 3, 2, 2, "ifdd"); (6, 3, 2, 3, "ifdf"); (6, 3, 2, 4, "ifdg");
    (6, 3, 2, 5, "ifdh"); (6, 3, 2, 6, "ifdi"); (6, 3, 3, 0, "iffs"); (6, 3, 3, 1, "iffp");
    (6, 3, 3, 2, "iffd"); (6, 3, 3, 3, "ifff"); (6, 3, 3, 4, "iffg"); (6, 3, 3, 5, "iffh");
    (6, 3, 3, 6, "iffi"); (6, 3, 4, 0, "ifgs"); (6, 3, 4, 1, "ifgp"); (6, 3, 4, 2, "ifgd");
    (6, 3, 4, 3, "ifgf"); (6, 3, 4, 4, "ifgg"); (6, 3, 4, 5, "ifgh"); (6, 3, 4, 6, "ifgi");
    (6, 3, 5, 0, "ifhs"); (6, 3, 5, 1, "ifhp"); (6, 3, 5, 2, "ifhd"); (6, 3, 5, 3, "ifhf");
    (6, 3, 5, 4, "ifhg"); (6, 3, 5, 5, "ifhh"); (6, 3, 5, 6, "ifhi"); (6, 3, 6, 0, "ifis");
    (6, 3, 6, 1, "ifip"); (6, 3, 6, 2, "ifid"); (6, 3, 6, 3, "ifif"); (6, 3, 6, 4, "ifig");
    (6, 3, 6, 5, "ifih"); (6, 3, 6, 6, "ifii"); (6, 4, 0, 0, "igss"); (6, 4, 0, 1, "igsp");
    (6, 4, 0, 2, "igsd"); (6, 4, 0, 3, "igsf"); (6, 4, 0, 4, "igsg"); (6, 4, 0, 5, "igsh");
    (6, 4, 0, 6, "igsi"); (6, 4, 1, 0, "igps"); (6, 4, 1, 1, "igpp"); (6, 4, 1, 2, "igpd");
    (6, 4, 1, 3, "igpf"); (6, 4, 1, 4, "igpg"); (6, 4, 1, 5, "igph"); (6, 4, 1, 6, "igpi");
    (6, 4, 2, 0, "igds"); (6, 4, 2, 1, "igdp"); (6, 4, 2, 2, "igdd"); (6, 4, 2, 3, "igdf");
    (6, 4, 2, 4, "igdg"); (6, 4, 2, 5, "igdh"); (6, 4, 2, 6, "igdi"); (6, 4, 3, 0, "igfs");
    (6, 4, 3, 1, "igfp"); (6, 4, 3, 2, "igfd"); (6, 4, 3, 3, "igff"); (6, 4, 3, 4, "igfg");
    (6, 4, 3, 5, "igfh"); (6, 4, 3, 6, "igfi"); (6, 4, 4, 0, "iggs"); (6, 4, 4, 1, "iggp");
    (6, 4, 4, 2, "iggd"); (6, 4, 4, 3, "iggf"); (6, 4, 4, 4, "iggg"); (6, 4, 4, 5, "iggh");
    (6, 4, 4, 6, "iggi"); (6, 4, 5, 0, "ighs"); (6, 4, 5, 1, "ighp"); (6, 4, 5, 2, "ighd");
    (6, 4, 5, 3, "ighf"); (6, 4, 5, 4, "ighg"); (6, 4, 5, 5, "ighh"); (6, 4, 5, 6, "ighi");
    (6, 4, 6, 0, "igis"); (6, 4, 6, 1, "igip"); (6, 4, 6, 2, "igid"); (6, 4, 6, 3, "igif");
    (6, 4, 6, 4, "igig"); (6, 4, 6, 5, "igih"); (6, 4, 6, 6, "igii"); (6, 5, 0, 0, "ihss");
    (6, 5, 0, 1, "ihsp"); (6, 5, 0, 2, "ihsd"); (6, 5, 0, 3, "ihsf"); (6, 5, 0, 4, "ihsg");
    (6, 5, 0, 5, "ihsh"); (6, 5, 0, 6, "ihsi"); (6, 5, 1, 0, "ihps"); (6, 5, 1, 1, "ihpp");
    (6, 5, 1, 2, "ihpd"); (6, 5, 1, 3, "ihpf"); (6, 5, 1, 4, "ihpg"); (6, 5, 1, 5, "ihph");
    (6, 5, 1, 6, "ihpi"); (6, 5, 2, 0, "ihds"); (6, 5, 2, 1, "ihdp"); (6, 5, 2, 2, "ihdd");
    (6, 5, 2, 3, "ihdf"); (6, 5, 2, 4, "ihdg"); (6, 5, 2, 5, "ihdh"); (6, 5, 2, 6, "ihdi");
    (6, 5, 3, 0, "ihfs"); (6, 5, 3, 1, "ihfp"); (6, 5, 3, 2, "ihfd"); (6, 5, 3, 3, "ihff");
    (6, 5, 3, 4, "ihfg"); (6, 5, 3, 5, "ihfh"); (6, 5, 3, 6, "ihfi"); (6, 5, 4, 0, "ihgs");
    (6, 5, 4, 1, "ihgp"); (6, 5, 4, 2, "ihgd"); (6, 5, 4, 3, "ihgf"); (6, 5, 4, 4, "ihgg");
    (6, 5, 4, 5, "ihgh"); (6, 5, 4, 6, "ihgi"); (6, 5, 5, 0, "ihhs"); (6, 5, 5, 1, "ihhp");
    (6, 5, 5, 2, "ihhd"); (6, 5, 5, 3, "ihhf"); (6, 5, 5, 4, "ihhg"); (6, 5, 5, 5, "ihhh");
    (6, 5, 5, 6, "ihhi"); (6, 5, 6, 0, "ihis"); (6, 5, 6, 1, "ihip"); (6, 5, 6, 2, "ihid");
    (6, 5, 6, 3, "ihif"); (6, 5, 6, 4, "ihig"); (6, 5, 6, 5, "ihih"); (6, 5, 6, 6, "ihii");
    (6, 6, 0, 0, "iiss"); (6, 6, 0, 1, "iisp"); (6, 6, 0, 2, "iisd"); (6, 6, 0, 3, "iisf");
    (6, 6, 0, 4, "iisg"); (6, 6, 0, 5, "iish"); (6, 6, 0, 6, "iisi"); (6, 6, 1, 0, "iips");
    (6, 6, 1, 1, "iipp"); (6, 6, 1, 2, "iipd"); (6, 6, 1, 3, "iipf"); (6, 6, 1, 4, "iipg");
    (6, 6, 1, 5, "iiph"); (6, 6, 1, 6, "iipi"); (6, 6, 2, 0, "iids"); (6, 6, 2, 1, "iidp");
    (6, 6, 2, 2, "iidd"); (6, 6, 2, 3, "iidf"); (6, 6, 2, 4, "iidg"); (6, 6, 2, 5, "iidh");
    (6, 6, 2, 6, "iidi"); (6, 6, 3, 0, "iifs"); (6, 6, 3, 1, "iifp"); (6, 6, 3, 2, "iifd");
    (6, 6, 3, 3, "iiff"); (6, 6, 3, 4, "iifg"); (6, 6, 3, 5, "iifh"); (6, 6, 3, 6, "iifi");
    (6, 6, 4, 0, "iigs"); (6, 6, 4, 1, "iigp"); (6, 6, 4, 2, "iigd"); (6, 6, 4, 3, "iigf");
    (6, 6, 4, 4, "iigg"); (6, 6, 4, 5, "iigh"); (6, 6, 4, 6, "iigi"); (6, 6, 5, 0, "iihs");
    (6, 6, 5, 1, "iihp"); (6, 6, 5, 2, "iihd"); (6, 6, 5, 3, "iihf"); (6, 6, 5, 4, "iihg");
    (6, 6, 5, 5, "iihh"); (6, 6, 5, 6, "iihi"); (6, 6, 6, 0, "iiis"); (6, 6, 6, 1, "iiip");
    (6, 6, 6, 2, "iiid"); (6, 6, 6, 3, "iiif"); (6, 6, 6, 4, "iiig"); (6, 6, 6, 5, "iiih");
    (6, 6, 6, 6, "iiii")]);
   (7, [(0, 0, 0, 7, "sssk"); (0, 0, 1, 7, "sspk"); (0, 0, 2, 7, "ssdk"); (0, 0, 3, 7, "ssfk");
    (0, 0, 4, 7, "ssgk"); (0, 0, 5, 7, "sshk"); (0, 0, 6, 7, "ssik"); (0, 0, 7, 0, "ssks");
    (0, 0, 7, 1, "sskp"); (0, 0, 7, 2, "sskd"); (0, 0, 7, 3, "sskf"); (0, 0, 7, 4, "sskg");
    (0, 0, 7, 5, "sskh"); (0, 0, 7, 6, "sski"); (0, 0, 7, 7, "sskk"); (0, 1, 0, 7, "spsk");
    (0, 1, 1, 7, "sppk"); (0, 1, 2, 7, "spdk"); (0, 1, 3, 7, "spfk"); (0, 1, 4, 7, "spgk");
    (0, 1, 5, 7, "sphk"); (0, 1, 6, 7, "spik"); (0, 1, 7, 0, "spks"); (0, 1, 7, 1, "spkp");
    (0, 1, 7, 2, "spkd"); (0, 1, 7, 3, "spkf"); (0, 1, 7, 4, "spkg"); (0, 1, 7, 5, "spkh");
    (0, 1, 7, 6, "spki"); (0, 1, 7, 7, "spkk"); (0, 2, 0, 7, "sdsk"); (0, 2, 1, 7, "sdpk");
    (0, 2, 2, 7, "sddk"); (0, 2, 3, 7, "sdfk"); (0, 2, 4, 7, "sdgk"); (0, 2, 5, 7, "sdhk");
    (0, 2, 6, 7, "sdik"); (0, 2, 7, 0, "sdks"); (0, 2, 7, 1, "sdkp"); (0, 2, 7, 2, "sdkd");
    (0, 2, 7, 3, "sdkf"); (0, 2, 7, 4, "sdkg"); (0, 2, 7, 5, "sdkh"); (0, 2, 7, 6, "sdki");
    (0, 2, 7, 7, "sdkk"); (0, 3, 0, 7, "sfsk"); (0, 3, 1, 7, "sfpk"); (0, 3, 2, 7, "sfdk");
    (0, 3, 3, 7, "sffk"); (0, 3, 4, 7, "sfgk"); (0, 3, 5, 7, "sfhk"); (0, 3, 6, 7, "sfik");
    (0, 3, 7, 0, "sfks"); (0, 3, 7, 1, "sfkp"); (0, 3, 7, 2, "sfkd"); (0, 3, 7, 3, "sfkf");
    (0, 3, 7, 4, "sfkg"); (0, 3, 7, 5, "sfkh"); (0, 3, 7, 6, "sfki"); (0, 3, 7, 7, "sfkk");
    (0, 4, 0, 7, "sgsk"); (0, 4, 1, 7, "sgpk"); (0, 4, 2, 7, "sgdk"); (0, 4, 3, 7, "sgfk");
    (0, 4, 4, 7, "sggk"); (0, 4, 5, 7, "sghk"); (0, 4, 6, 7, "sgik"); (0, 4, 7, 0, "sgks");
    (0, 4, 7, 1, "sgkp"); (0, 4, 7, 2, "sgkd"); (0, 4, 7, 3, "sgkf"); (0, 4, 7, 4, "sgkg");
    (0, 4, 7, 5, "sgkh"); (0, 4, 7, 6, "sgki"); (0, 4, 7, 7, "sgkk"); (0, 5, 0, 7, "shsk");
    (0, 5, 1, 7, "shpk"); (0, 5, 2, 7, "shdk"); (0, 5, 3, 7, "shfk"); (0, 5, 4, 7, "shgk");
    (0, 5, 5, 7, "shhk"); (0, 5, 6, 7, "shik"); (0, 5, 7, 0, "shks"); (0, 5, 7, 1, "shkp");
    (0, 5, 7, 2, "shkd"); (0, 5, 7, 3, "shkf"); (0, 5, 7, 4, "shkg"); (0, 5, 7, 5, "shkh");
    (0, 5, 7, 6, "shki"); (0, 5, 7, 7, "shkk"); (0, 6, 0, 7, "sisk"); (0, 6, 1, 7, "sipk");
    (0, 6, 2, 7, "sidk"); (0, 6, 3, 7, "sifk"); (0, 6, 4, 7, "sigk"); (0, 6, 5, 7, "sihk");
    (0, 6, 6, 7, "siik"); (0, 6, 7, 0, "siks"); (0, 6, 7, 1, "sikp"); (0, 6, 7, 2, "sikd");
    (0, 6, 7, 3, "sikf"); (0, 6, 7, 4, "sikg"); (0, 6, 7, 5, "sikh"); (0, 6, 7, 6, "siki");
    (0, 6, 7, 7, "sikk"); (0, 7, 0, 0, "skss"); (0, 7, 0, 1, "sksp"); (0, 7, 0, 2, "sksd");
    (0, 7, 0, 3, "sksf"); (0, 7, 0, 4, "sksg"); (0, 7, 0, 5, "sksh"); (0, 7, 0, 6, "sksi");
    (0, 7, 0, 7, "sksk"); (0, 7, 1, 0, "skps"); (0, 7, 1, 1, "skpp"); (0, 7, 1, 2, "skpd");
    (0, 7, 1, 3, "skpf"); (0, 7, 1, 4, "skpg"); (0, 7, 1, 5, "skph"); (0, 7, 1, 6, "skpi");
    (0, 7, 1, 7, "skpk"); (0, 7, 2, 0, "skds"); (0, 7, 2, 1, "skdp"); (0, 7, 2, 2, "skdd");
    (0, 7, 2, 3, "skdf"); (0, 7, 2, 4, "skdg"); (0, 7, 2, 5, "skdh"); (0, 7, 2, 6, "skdi");
    (0, 7, 2, 7, "skdk"); (0, 7, 3, 0, "skfs"); (0, 7, 3, 1, "skfp"); (0, 7, 3, 2, "skfd");
    (0, 7, 3, 3, "skff"); (0, 7, 3, 4, "skfg"); (0, 7, 3, 5, "skfh"); (0, 7, 3, 6, "skfi");
    (0, 7, 3, 7, "skfk"); (0, 7, 4, 0, "skgs"); (0, 7, 4, 1, "skgp"); (0, 7, 4, 2, "skgd");
    (0, 7, 4, 3, "skgf"); (0, 7, 4, 4, "skgg"); (0, 7, 4, 5, "skgh"); (0, 7, 4, 6, "skgi");
    (0, 7, 4, 7, "skgk"); (0, 7, 5, 0, "skhs"); (0, 7, 5, 1, "skhp"); (0, 7, 5, 2, "skhd");
    (0, 7, 5, 3, "skhf"); (0, 7, 5, 4, "skhg"); (0, 7, 5, 5, "skhh"); (0, 7, 5, 6, "skhi");
    (0, 7, 5, 7, "skhk"); (0, 7, 6, 0, "skis"); (0, 7, 6, 1, "skip"); (0, 7, 6, 2, "skid");
    (0, 7, 6, 3, "skif"); (0, 7, 6, 4, "skig"); (0, 7, 6, 5, "skih"); (0, 7, 6, 6, "skii");
    (0, 7, 6, 7, "skik"); (0, 7, 7, 0, "skks"); (0, 7, 7, 1, "skkp"); (0, 7, 7, 2, "skkd");
    (0, 7, 7, 3, "skkf"); (0, 7, 7, 4, "skkg"); (0, 7, 7, 5, "skkh"); (0, 7, 7, 6, "skki");
    (0, 7, 7, 7, "skkk"); (1, 0, 0, 7, "pssk"); (1, 0, 1, 7, "pspk"); (1, 0, 2, 7, "psdk");
    (1, 0, 3, 7, "psfk"); (1, 0, 4, 7, "psgk"); (1, 0, 5, 7, "pshk"); (1, 0, 6, 7, "psik");
    (1, 0, 7, 0, "psks"); (1, 0, 7, 1, "pskp"); (1, 0, 7, 2, "pskd"); (1, 0, 7, 3, "pskf");
    (1, 0, 7, 4, "pskg"); (1, 0, 7, 5, "pskh"); (1, 0, 7, 6, "pski"); (1, 0, 7, 7, "pskk");
    (1, 1, 0, 7, "ppsk"); (1, 1, 1, 7, "pppk"); (1, 1, 2, 7, "ppdk"); (1, 1, 3, 7, "ppfk");
    (1, 1, 4, 7, "ppgk"); (1, 1, 5, 7, "pphk"); (1, 1, 6, 7, "ppik"); (1, 1, 7, 0, "ppks");
    (1, 1, 7, 1, "ppkp"); (1, 1, 7, 2, "ppkd"); (1, 1, 7, 3, "ppkf"); (1, 1, 7, 4, "ppkg");
    (1, 1, 7, 5, "ppkh"); (1, 1, 7, 6, "ppki"); (1, 1, 7, 7, "ppkk"); (1, 2, 0, 7, "pdsk");
    (1, 2, 1, 7, "pdpk"); (1, 2, 2, 7, "pddk"); (1, 2, 3, 7, "pdfk"); (1, 2, 4, 7, "pdgk");
    (1, 2, 5, 7, "pdhk"); (1, 2, 6, 7, "pdik"); (1, 2, 7, 0, "pdks"); (1, 2, 7, 1, "pdkp");
    (1, 2, 7, 2, "pdkd"); (1, 2, 7, 3, "pdkf"); (1, 2, 7, 4, "pdkg"); (1, 2, 7, 5, "pdkh");
    (1, 2, 7, 6, "pdki"); (1, 2, 7, 7, "pdkk"); (1, 3, 0, 7, "pfsk"); (1, 3, 1, 7, "pfpk");
    (1, 3, 2, 7, "pfdk"); (1, 3, 3, 7, "pffk"); (1, 3, 4, 7, "pfgk"); (1, 3, 5, 7, "pfhk");
    (1, 3, 6, 7, "pfik"); (1, 3, 7, 0, "pfks"); (1, 3, 7, 1, "pfkp"); (1, 3, 7, 2, "pfkd");
    (1, 3, 7, 3, "pfkf"); (1, 3, 7, 4, "pfkg"); (1, 3, 7, 5, "pfkh"); (1, 3, 7, 6, "pfki");
    (1, 3, 7, 7, "pfkk"); (1, 4, 0, 7, "pgsk"); (1, 4, 1, 7, "pgpk"); (1, 4, 2, 7, "pgdk");
    (1, 4, 3, 7, "pgfk"); (1, 4, 4, 7, "pggk"); (1, 4, 5, 7, "pghk"); (1, 4, 6, 7, "pgik");
    (1, 4, 7, 0, "pgks"); (1, 4, 7, 1, "pgkp"); (1, 4, 7, 2, "pgkd"); (1, 4, 7, 3, "pgkf");
    (1, 4, 7, 4, "pgkg"); (1, 4, 7, 5, "pgkh"); (1, 4, 7, 6, "pgki"); (1, 4, 7, 7, "pgkk");
    (1, 5, 0, 7, "phsk"); (1, 5, 1, 7, "phpk"); (1, 5, 2, 7, "phdk"); (1, 5, 3, 7, "phfk");
    (1, 5, 4, 7, "phgk"); (1, 5, 5, 7, "phhk"); (1, 5, 6, 7, "phik"); (1, 5, 7, 0, "phks");
    (1, 5, 7, 1, "phkp"); (1, 5, 7, 2, "phkd"); (1, 5, 7, 3, "phkf"); (1, 5, 7, 4, "phkg");
    (1, 5, 7, 5, "phkh"); (1, 5, 7, 6, "phki"); (1, 5, 7, 7, "phkk"); (1, 6, 0, 7, "pisk");
    (1, 6, 1, 7, "pipk"); (1, 6, 2, 7, "pidk"); (1, 6, 3, 7, "pifk"); (1, 6, 4, 7, "pigk");
    (1, 6, 5, 7, "pihk"); (1, 6, 6, 7, "piik"); (1, 6, 7, 0, "piks"); (1, 6, 7, 1, "pikp");
    (1, 6, 7, 2, "pikd"); (1, 6, 7, 3, "pikf"); (1, 6, 7, 4, "pikg"); (1, 6, 7, 5, "pikh");
    (1, 6, 7, 6, "piki"); (1, 6, 7, 7, "pikk"); (1, 7, 0, 0, "pkss"); (1, 7, 0, 1, "pksp");
    (1, 7, 0, 2, "pksd"); (1, 7, 0, 3, "pksf"); (1, 7, 0, 4, "pksg"); (1, 7, 0, 5, "pksh");
    (1, 7, 0, 6, "pksi"); (1, 7, 0, 7, "pksk"); (1, 7, 1, 0, "pkps"); (1, 7, 1, 1, "pkpp");
    (1, 7, 1, 2, "pkpd"); (1, 7, 1, 3, "pkpf"); (1, 7, 1, 4, "pkpg"); (1, 7, 1, 5, "pkph");
    (1, 7, 1, 6, "pkpi"); (1, 7, 1, 7, "pkpk"); (1, 7, 2, 0, "pkds"); (1, 7, 2, 1, "pkdp");
    (1, 7, 2, 2, "pkdd"); (1, 7, 2, 3, "pkdf"); (1, 7, 2, 4, "pkdg"); (1, 7, 2, 5, "pkdh");
    (1, 7, 2, 6, "pkdi"); (1, 7, 2, 7, "pkdk"); (1, 7, 3, 0, "pkfs"); (1, 7, 3, 1, "pkfp");
    (1, 7, 3, 2, "pkfd"); (1, 7, 3, 3, "pkff"); (1, 7, 3, 4, "pkfg"); (1, 7, 3, 5, "pkfh");
    (1, 7, 3, 6, "pkfi"); (1, 7, 3, 7, "pkfk"); (1, 7, 4, 0, "pkgs"); (1, 7, 4, 1, "pkgp");
    (1, 7, 4, 2, "pkgd"); (1, 7, 4, 3, "pkgf"); (1, 7, 4, 4, "pkgg"); (1, 7, 4, 5, "pkgh");
    (1, 7, 4, 6, "pkgi"); (1, 7, 4, 7, "pkgk"); (1, 7, 5, 0, "pkhs"); (1, 7, 5, 1, "pkhp");
    (1, 7, 5, 2, "pkhd"); (1, 7, 5, 3, "pkhf"); (1, 7, 5, 4, "pkhg"); (1, 7, 5, 5, "pkhh");
    (1, 7, 5, 6, "pkhi"); (1, 7, 5, 7, "pkhk"); (1, 7, 6, 0, "pkis"); (1, 7, 6, 1, "pkip");
    (1, 7, 6, 2, "pkid"); (1, 7, 6, 3, "pkif"); (1, 7, 6, 4, "pkig"); (1, 7, 6, 5, "pkih");
    (1, 7, 6, 6, "pkii"); (1, 7, 6, 7, "pkik"); (1, 7, 7, 0, "pkks"); (1, 7, 7, 1, "pkkp");
    (1, 7, 7, 2, "pkkd"); (1, 7, 7, 3, "pkkf"); (1, 7, 7, 4, "pkkg"); (1, 7, 7, 5, "pkkh");
    (1, 7, 7, 6, "pkki"); (1, 7, 7, 7, "pkkk"); (2, 0, 0, 7, "dssk"); (2, 0, 1, 7, "dspk");
    (2, 0, 2, 7, "dsdk"); (2, 0, 3, 7, "dsfk"); (2, 0, 4, 7, "dsgk"); (2, 0, 5, 7, "dshk");
    (2, 0, 6, 7, "dsik"); (2, 0, 7, 0, "dsks"); (2, 0, 7, 1, "dskp"); (2, 0, 7, 2, "dskd");
    (2, 0, 7, 3, "dskf"); (2, 0, 7, 4, "dskg"); (2, 0, 7, 5, "dskh"); (2, 0, 7, 6, "dski");
    (2, 0, 7, 7, "dskk"); (2, 1, 0, 7, "dpsk"); (2, 1, 1, 7, "dppk"); (2, 1, 2, 7, "dpdk");
    (2, 1, 3, 7, "dpfk"); (2, 1, 4, 7, "dpgk"); (2, 1, 5, 7, "dphk"); (2, 1, 6, 7, "dpik");
    (2, 1, 7, 0, "dpks"); (2, 1, 7, 1, "dpkp"); (2, 1, 7, 2, "dpkd"); (2, 1, 7, 3, "dpkf");
    (2, 1, 7, 4, "dpkg"); (2, 1, 7, 5, "dpkh"); (2, 1, 7, 6, "dpki"); (2, 1, 7, 7, "dpkk");
    (2, 2, 0, 7, "ddsk"); (2, 2, 1, 7, "ddpk"); (2, 2, 2, 7, "dddk"); (2, 2, 3, 7, "ddfk");
    (2, 2, 4, 7, "ddgk"); (2, 2, 5, 7, "ddhk"); (2, 2, 6, 7, "ddik"); (2, 2, 7, 0, "ddks");
    (2, 2, 7, 1, "ddkp"); (2, 2, 7, 2, "ddkd"); (2, 2, 7, 3, "ddkf"); (2, 2, 7, 4, "ddkg");
    (2, 2, 7, 5, "ddkh"); (2, 2, 7, 6, "ddki"); (2, 2, 7, 7, "ddkk"); (2, 3, 0, 7, "dfsk");
    (2, 3, 1, 7, "dfpk"); (2, 3, 2, 7, "dfdk"); (2, 3, 3, 7, "dffk"); (2, 3, 4, 7, "dfgk");
    (2, 3, 5, 7, "dfhk"); (2, 3, 6, 7, "dfik"); (2, 3, 7, 0, "dfks"); (2, 3, 7, 1, "dfkp");
    (2, 3, 7, 2, "dfkd"); (2, 3, 7, 3, "dfkf"); (2, 3, 7, 4, "dfkg"); (2, 3, 7, 5, "dfkh");
    (2, 3, 7, 6, "dfki"); (2, 3, 7, 7, "dfkk"); (2, 4, 0, 7, "dgsk"); (2, 4, 1, 7, "dgpk");
    (2, 4, 2, 7, "dgdk"); (2, 4, 3, 7, "dgfk"); (2, 4, 4, 7, "dggk"); (2, 4, 5, 7, "dghk");
    (2, 4, 6, 7, "dgik"); (2, 4, 7, 0, "dgks"); (2, 4, 7, 1, "dgkp"); (2, 4, 7, 2, "dgkd");
    (2, 4, 7, 3, "dgkf"); (2, 4, 7, 4, "dgkg"); (2, 4, 7, 5, "dgkh"); (2, 4, 7, 6, "dgki");
    (2, 4, 7, 7, "dgkk"); (2, 5, 0, 7, "dhsk"); (2, 5, 1, 7, "dhpk"); (2, 5, 2, 7, "dhdk");
    (2, 5, 3, 7, "dhfk"); (2, 5, 4, 7, "dhgk"); (2, 5, 5, 7, "dhhk"); (2, 5, 6, 7, "dhik");
    (2, 5, 7, 0, "dhks"); (2, 5, 7, 1, "dhkp"); (2, 5, 7, 2, "dhkd"); (2, 5, 7, 3, "dhkf");
    (2, 5, 7, 4, "dhkg"); (2, 5, 7, 5, "dhkh"); (2, 5, 7, 6, "dhki"); (2, 5, 7, 7, "dhkk");
    (2, 6, 0, 7, "disk"); (2, 6, 1, 7, "dipk"); (2, 6, 2, 7, "didk"); (2, 6, 3, 7, "difk");
    (2, 6, 4, 7, "digk"); (2, 6, 5, 7, "dihk"); (2, 6, 6, 7, "diik"); (2, 6, 7, 0, "diks");
    (2, 6, 7, 1, "dikp"); (2, 6, 7, 2, "dikd"); (2, 6, 7, 3, "dikf"); (2, 6, 7, 4, "dikg");
    (2, 6, 7, 5, "dikh"); (2, 6, 7, 6, "diki"); (2, 6, 7, 7, "dikk"); (2, 7, 0, 0, "dkss");
    (2, 7, 0, 1, "dksp"); (2, 7, 0, 2, "dksd"); (2, 7, 0, 3, "dksf"); (2, 7, 0, 4, "dksg");
    (2, 7, 0, 5, "dksh"); (2, 7, 0, 6, "dksi"); (2, 7, 0, 7, "dksk"); (2, 7, 1, 0, "dkps");
    (2, 7, 1, 1, "dkpp"); (2, 7, 1, 2, "dkpd"); (2, 7, 1, 3, "dkpf"); (2, 7, 1, 4, "dkpg");
    (2, 7, 1, 5, "dkph"); (2, 7, 1, 6, "dkpi"); (2, 7, 1, 7, "dkpk"); (2, 7, 2, 0, "dkds");
    (2, 7, 2, 1, "dkdp"); (2, 7, 2, 2, "dkdd"); (2, 7, 2, 3, "dkdf"); (2, 7, 2, 4, "dkdg");
    (2, 7, 2, 5, "dkdh"); (2, 7, 2, 6, "dkdi"); (2, 7, 2, 7, "dkdk"); (2, 7, 3, 0, "dkfs");
    (2, 7, 3, 1, "dkfp"); (2, 7, 3, 2, "dkfd"); (2, 7, 3, 3, "dkff"); (2, 7, 3, 4, "dkfg");
    (2, 7, 3, 5, "dkfh"); (2, 7, 3, 6, "dkfi"); (2, 7, 3, 7, "dkfk"); (2, 7, 4, 0, "dkgs");
    (2, 7, 4, 1, "dkgp"); (2, 7, 4, 2, "dkgd"); (2, 7, 4, 3, "dkgf"); (2, 7, 4, 4, "dkgg");
    (2, 7, 4, 5, "dkgh"); (2, 7, 4, 6, "dkgi"); (2, 7, 4, 7, "dkgk"); (2, 7, 5, 0, "dkhs");
    (2, 7, 5, 1, "dkhp"); (2, 7, 5, 2, "dkhd"); (2, 7, 5, 3, "dkhf"); (2, 7, 5, 4, "dkhg");
    (2, 7, 5, 5, "dkhh"); (2, 7, 5, 6, "dkhi"); (2, 7, 5, 7, "dkhk"); (2, 7, 6, 0, "dkis");
    (2, 7, 6, 1, "dkip"); (2, 7, 6, 2, "dkid"); (2, 7, 6, 3, "dkif"); (2, 7, 6, 4, "dkig");
    (2, 7, 6, 5, "dkih"); (2, 7, 6, 6, "dkii"); (2, 7, 6, 7, "dkik"); (2, 7, 7, 0, "dkks");
    (2, 7, 7, 1, "dkkp"); (2, 7, 7, 2, "dkkd"); (2, 7, 7, 3, "dkkf"); (2, 7, 7, 4, "dkkg");
    (2, 7, 7, 5, "dkkh"); (2, 7, 7, 6, "dkki"); (2, 7, 7, 7, "dkkk"); (3, 0, 0, 7, "fssk");
    (3, 0, 1, 7, "fspk"); (3, 0, 2, 7, "fsdk"); (3, 0, 3, 7, "fsfk"); (3, 0, 4, 7, "fsgk");
    (3, 0, 5, 7, "fshk"); (3, 0, 6, 7, "fsik"); (3, 0, 7, 0, "fsks"); (3, 0, 7, 1, "fskp");
    (3, 0, 7, 2, "fskd"); (3, 0, 7, 3, "fskf"); (3, 0, 7, 4, "fskg"); (3, 0, 7, 5, "fskh");
    (3, 0, 7, 6, "fski"); (3, 0, 7, 7, "fskk"); (3, 1, 0, 7, "fpsk"); (3, 1, 1, 7, "fppk");
    (3, 1, 2, 7, "fpdk"); (3, 1, 3, 7, "fpfk"); (3, 1, 4, 7, "fpgk"); (3, 1, 5, 7, "fphk");
    (3, 1, 6, 7, "fpik"); (3, 1, 7, 0, "fpks"); (3, 1, 7, 1, "fpkp"); (3, 1, 7, 2, "fpkd");
    (3, 1, 7, 3, "fpkf"); (3, 1, 7, 4, "fpkg"); (3, 1, 7, 5, "fpkh"); (3, 1, 7, 6, "fpki");
    (3, 1, 7, 7, "fpkk"); (3, 2, 0, 7, "fdsk"); (3, 2, 1, 7, "fdpk"); (3, 2, 2, 7, "fddk");
    (3, 2, 3, 7, "fdfk"); (3, 2, 4, 7, "fdgk"); (3, 2, 5, 7, "fdhk"); (3, 2, 6, 7, "fdik");
    (3, 2, 7, 0, "fdks"); (3, 2, 7, 1, "fdkp"); (3, 2, 7, 2, "fdkd"); (3, 2, 7, 3, "fdkf");
    (3, 2, 7, 4, "fdkg"); (3, 2, 7, 5, "fdkh"); (3, 2, 7, 6, "fdki"); (3, 2, 7, 7, "fdkk");
    (3, 3, 0, 7, "ffsk"); (3, 3, 1, 7, "ffpk"); (3, 3, 2, 7, "ffdk"); (3, 3, 3, 7, "fffk");
    (3, 3, 4, 7, "ffgk"); (3, 3, 5, 7, "ffhk"); (3, 3, 6, 7, "ffik"); (3, 3, 7, 0, "ffks");
    (3, 3, 7, 1, "ffkp"); (3, 3, 7, 2, "ffkd"); (3, 3, 7, 3, "ffkf"); (3, 3, 7, 4, "ffkg");
    (3, 3, 7, 5, "ffkh"); (3, 3, 7, 6, "ffki"); (3, 3, 7, 7, "ffkk"); (3, 4, 0, 7, "fgsk");
    (3, 4, 1, 7, "fgpk"); (3, 4, 2, 7, "fgdk"); (3, 4, 3, 7, "fgfk"); (3, 4, 4, 7, "fggk");
    (3, 4, 5, 7, "fghk"); (3, 4, 6, 7, "fgik"); (3, 4, 7, 0, "fgks"); (3, 4, 7, 1, "fgkp");
    (3, 4, 7, 2, "fgkd"); (3, 4, 7, 3, "fgkf"); (3, 4, 7, 4, "fgkg"); (3, 4, 7, 5, "fgkh");
    (3, 4, 7, 6, "fgki"); (3, 4, 7, 7, "fgkk"); (3, 5, 0, 7, "fhsk"); (3, 5, 1, 7, "fhpk");
    (3, 5, 2, 7, "fhdk"); (3, 5, 3, 7, "fhfk"); (3, 5, 4, 7, "fhgk"); (3, 5, 5, 7, "fhhk");
    (3, 5, 6, 7, "fhik"); (3, 5, 7, 0, "fhks"); (3, 5, 7, 1, "fhkp"); (3, 5, 7, 2, "fhkd");
    (3, 5, 7, 3, "fhkf"); (3, 5, 7, 4, "fhkg"); (3, 5, 7, 5, "fhkh"); (3, 5, 7, 6, "fhki");
    (3, 5, 7, 7, "fhkk"); (3, 6, 0, 7, "fisk"); (3, 6, 1, 7, "fipk"); (3, 6, 2, 7, "fidk");
    (3, 6, 3, 7, "fifk"); (3, 6, 4, 7, "figk"); (3, 6, 5, 7, "fihk"); (3, 6, 6, 7, "fiik");
    (3, 6, 7, 0, "fiks"); (3, 6, 7, 1, "fikp"); (3, 6, 7, 2, "fikd"); (3, 6, 7, 3, "fikf");
    (3, 6, 7, 4, "fikg"); (3, 6, 7, 5, "fikh"); (3, 6, 7, 6, "fiki"); (3, 6, 7, 7, "fikk");
    (3, 7, 0, 0, "fkss"); (3, 7, 0, 1, "fksp"); (3, 7, 0, 2, "fksd"); (3, 7, 0, 3, "fksf");
    (3, 7, 0, 4, "fksg"); (3, 7, 0, 5, "fksh"); (3, 7, 0, 6, "fksi"); (3, 7, 0, 7, "fksk");
    (3, 7, 1, 0, "fkps"); (3, 7, 1, 1, "fkpp"); (3, 7, 1, 2, "fkpd"); (3, 7, 1, 3, "fkpf");
    (3, 7, 1, 4, "fkpg"); (3, 7, 1, 5, "fkph"); (3, 7, 1, 6, "fkpi"); (3, 7, 1, 7, "fkpk");
    (3, 7, 2, 0, "fkds"); (3, 7, 2, 1, "fkdp"); (3, 7, 2, 2, "fkdd"); (3, 7, 2, 3, "fkdf");
    (3, 7, 2, 4, "fkdg"); (3, 7, 2, 5, "fkdh"); (3, 7, 2, 6, "fkdi"); (3, 7, 2, 7, "fkdk");
    (3, 7, 3, 0, "fkfs"); (3, 7, 3, 1, "fkfp"); (3, 7, 3, 2, "fkfd"); (3, 7, 3, 3, "fkff");
    (3, 7, 3, 4, "fkfg"); (3, 7, 3, 5, "fkfh"); (3, 7, 3, 6, "fkfi"); (3, 7, 3, 7, "fkfk");
    (3, 7, 4, 0, "fkgs"); (3, 7, 4, 1, "fkgp"); (3, 7, 4, 2, "fkgd"); (3, 7, 4, 3, "fkgf");
    (3, 7, 4, 4, "fkgg"); (3, 7, 4, 5, "fkgh"); (3, 7, 4, 6, "fkgi"); (3, 7, 4, 7, "fkgk");
    (3, 7, 5, 0, "fkhs"); (3, 7, 5, 1, "fkhp"); (3, 7, 5, 2, "fkhd"); (3, 7, 5, 3, "fkhf");
    (3, 7, 5, 4, "fkhg"); (3, 7, 5, 5, "fkhh"); (3, 7, 5, 6, "fkhi"); (3, 7, 5, 7, "fkhk");
    (3, 7, 6, 0, "fkis"); (3, 7, 6, 1, "fkip"); (3, 7, 6, 2, "fkid"); (3, 7, 6, 3, "fkif");
    (3, 7, 6, 4, "fkig"); (3, 7, 6, 5, "fkih"); (3, 7, 6, 6, "fkii"); (3, 7, 6, 7, "fkik");
    (3, 7, 7, 0, "fkks"); (3, 7, 7, 1, "fkkp"); (3, 7, 7, 2, "fkkd"); (3, 7, 7, 3, "fkkf");
    (3, 7, 7, 4, "fkkg"); (3, 7, 7, 5, "fkkh"); (3, 7, 7, 6, "fkki"); (3, 7, 7, 7, "fkkk");
    (4, 0, 0, 7, "gssk"); (4, 0, 1, 7, "gspk"); (4, 0, 2, 7, "gsdk"); (4, 0, 3, 7, "gsfk");
    (4, 0, 4, 7, "gsgk"); (4, 0, 5, 7, "gshk"); (4, 0, 6, 7, "gsik"); (4, 0, 7, 0, "gsks");
    (4, 0, 7, 1, "gskp"); (4, 0, 7, 2, "gskd"); (4, 0, 7, 3, "gskf"); (4, 0, 7, 4, "gskg");
    (4, 0, 7, 5, "gskh"); (4, 0, 7, 6, "gski"); (4, 0, 7, 7, "gskk"); (4, 1, 0, 7, "gpsk");
    (4, 1, 1, 7, "gppk"); (4, 1, 2, 7, "gpdk"); (4, 1, 3, 7, "gpfk"); (4, 1, 4, 7, "gpgk");
    (4, 1, 5, 7, "gphk"); (4, 1, 6, 7, "gpik"); (4, 1, 7, 0, "gpks"); (4, 1, 7, 1, "gpkp");
    (4, 1, 7, 2, "gpkd"); (4, 1, 7, 3, "gpkf"); (4, 1, 7, 4, "gpkg"); (4, 1, 7, 5, "gpkh");
    (4, 1, 7, 6, "gpki"); (4, 1, 7, 7, "gpkk"); (4, 2, 0, 7, "gdsk"); (4, 2, 1, 7, "gdpk");
    (4, 2, 2, 7, "gddk"); (4, 2, 3, 7, "gdfk"); (4, 2, 4, 7, "gdgk"); (4, 2, 5, 7, "gdhk");
    (4, 2, 6, 7, "gdik"); (4, 2, 7, 0, "gdks"); (4, 2, 7, 1, "gdkp"); (4, 2, 7, 2, "gdkd");
    (4, 2, 7, 3, "gdkf"); (4, 2, 7, 4, "gdkg"); (4, 2, 7, 5, "gdkh"); (4, 2, 7, 6, "gdki");
    (4, 2, 7, 7, "gdkk"); (4, 3, 0, 7, "gfsk"); (4, 3, 1, 7, "gfpk"); (4, 3, 2, 7, "gfdk");
    (4, 3, 3, 7, "gffk"); (4, 3, 4, 7, "gfgk"); (4, 3, 5, 7, "gfhk"); (4, 3, 6, 7, "gfik");
    (4, 3, 7, 0, "gfks"); (4, 3, 7, 1, "gfkp"); (4, 3, 7, 2, "gfkd"); (4, 3, 7, 3, "gfkf");
    (4, 3, 7, 4, "gfkg"); (4, 3, 7, 5, "gfkh"); (4, 3, 7, 6, "gfki"); (4, 3, 7, 7, "gfkk");
    (4, 4, 0, 7, "ggsk"); (4, 4, 1, 7, "ggpk"); (4, 4, 2, 7, "ggdk"); (4, 4, 3, 7, "ggfk");
    (4, 4, 4, 7, "gggk"); (4, 4, 5, 7, "gghk"); (4, 4, 6, 7, "ggik"); (4, 4, 7, 0, "ggks");
    (4, 4, 7, 1, "ggkp"); (4, 4, 7, 2, "ggkd"); (4, 4, 7, 3, "ggkf"); (4, 4, 7, 4, "ggkg");
    (4, 4, 7, 5, "ggkh"); (4, 4, 7, 6, "ggki"); (4, 4, 7, 7, "ggkk"); (4, 5, 0, 7, "ghsk");
    (4, 5, 1, 7, "ghpk"); (4, 5, 2, 7, "ghdk"); (4, 5, 3, 7, "ghfk"); (4, 5, 4, 7, "ghgk");
    (4, 5, 5, 7, "ghhk"); (4, 5, 6, 7, "ghik"); (4, 5, 7, 0, "ghks"); (4, 5, 7, 1, "ghkp");
    (4, 5, 7, 2, "ghkd"); (4, 5, 7, 3, "ghkf"); (4, 5, 7, 4, "ghkg"); (4, 5, 7, 5, "ghkh");
    (4, 5, 7, 6, "ghki"); (4, 5, 7, 7, "ghkk"); (4, 6, 0, 7, "gisk"); (4, 6, 1, 7, "gipk");
    (4, 6, 2, 7, "gidk"); (4, 6, 3, 7, "gifk"); (4, 6, 4, 7, "gigk"); (4, 6, 5, 7, "gihk");
    (4, 6, 6, 7, "giik"); (4, 6, 7, 0, "giks"); (4, 6, 7, 1, "gikp"); (4, 6, 7, 2, "gikd");
    (4, 6, 7, 3, "gikf"); (4, 6, 7, 4, "gikg"); (4, 6, 7, 5, "gikh"); (4, 6, 7, 6, "giki");
    (4, 6, 7, 7, "gikk"); (4, 7, 0, 0, "gkss"); (4, 7, 0, 1, "gksp"); (4, 7, 0, 2, "gksd");
    (4, 7, 0, 3, "gksf"); (4, 7, 0, 4, "gksg"); (4, 7, 0, 5, "gksh"); (4, 7, 0, 6, "gksi");
    (4, 7, 0, 7, "gksk"); (4, 7, 1, 0, "gkps"); (4, 7, 1, 1, "gkpp"); (4, 7, 1, 2, "gkpd");
    (4, 7, 1, 3, "gkpf"); (4, 7, 1, 4, "gkpg"); (4, 7, 1, 5, "gkph"); (4, 7, 1, 6, "gkpi");
    (4, 7, 1, 7, "gkpk"); (4, 7, 2, 0, "gkds"); (4, 7, 2, 1, "gkdp"); (4, 7, 2, 2, "gkdd");
    (4, 7, 2, 3, "gkdf"); (4, 7, 2, 4, "gkdg"); (4, 7, 2, 5, "gkdh"); (4, 7, 2, 6, "gkdi");
    (4, 7, 2, 7, "gkdk"); (4, 7, 3, 0, "gkfs"); (4, 7, 3, 1, "gkfp"); (4, 7, 3, 2, "gkfd");
    (4, 7, 3, 3, "gkff"); (4, 7, 3, 4, "gkfg"); (4, 7, 3, 5, "gkfh"); (4, 7, 3, 6, "gkfi");
    (4, 7, 3, 7, "gkfk"); (4, 7, 4, 0, "gkgs"); (4, 7, 4, 1, "gkgp"); (4, 7, 4, 2, "gkgd");
    (4, 7, 4, 3, "gkgf"); (4, 7, 4, 4, "gkgg"); (4, 7, 4, 5, "gkgh"); (4, 7, 4, 6, "gkgi");
    (4, 7, 4, 7, "gkgk"); (4, 7, 5, 0, "gkhs"); (4, 7, 5, 1, "gkhp"); (4, 7, 5, 2, "gkhd");
    (4, 7, 5, 3, "gkhf"); (4, 7, 5, 4, "gkhg"); (4, 7, 5, 5, "gkhh"); (4, 7, 5, 6, "gkhi");
    (4, 7, 5, 7, "gkhk"); (4, 7, 6, 0, "gkis"); (4, 7, 6, 1, "gkip"); (4, 7, 6, 2, "gkid");
    (4, 7, 6, 3, "gkif"); (4, 7, 6, 4, "gkig"); (4, 7, 6, 5, "gkih"); (4, 7, 6, 6, "gkii");
    (4, 7, 6, 7, "gkik"); (4, 7, 7, 0, "gkks"); (4, 7, 7, 1, "gkkp"); (4, 7, 7, 2, "gkkd");
    (4, 7, 7, 3, "gkkf"); (4, 7, 7, 4, "gkkg"); (4, 7, 7, 5, "gkkh"); (4, 7, 7, 6, "gkki");
    (4, 7, 7, 7, "gkkk"); (5, 0, 0, 7, "hssk"); (5, 0, 1, 7, "hspk"); (5, 0, 2, 7, "hsdk");
    (5, 0, 3, 7, "hsfk"); (5, 0, 4, 7, "hsgk"); (5, 0, 5, 7, "hshk"); (5, 0, 6, 7, "hsik");
    (5, 0, 7, 0, "hsks"); (5, 0, 7, 1, "hskp"); (5, 0, 7, 2, "hskd"); (5, 0, 7, 3, "hskf");
    (5, 0, 7, 4, "hskg"); (5, 0, 7, 5, "hskh"); (5, 0, 7, 6, "hski"); (5, 0, 7, 7, "hskk");
    (5, 1, 0, 7, "hpsk"); (5, 1, 1, 7, "hppk"); (5, 1, 2, 7, "hpdk"); (5, 1, 3, 7, "hpfk");
    (5, 1, 4, 7, "hpgk"); (5, 1, 5, 7, "hphk"); (5, 1, 6, 7, "hpik"); (5, 1, 7, 0, "hpks");
    (5, 1, 7, 1, "hpkp"); (5, 1, 7, 2, "hpkd"); (5, 1, 7, 3, "hpkf"); (5, 1, 7, 4, "hpkg");
    (5, 1, 7, 5, "hpkh"); (5, 1, 7, 6, "hpki"); (5, 1, 7, 7, "hpkk"); (5, 2, 0, 7, "hdsk");
    (5, 2, 1, 7, "hdpk"); (5, 2, 2, 7, "hddk"); (5, 2, 3, 7, "hdfk"); (5, 2, 4, 7, "hdgk");
    (5, 2, 5, 7, "hdhk"); (5, 2, 6, 7, "hdik"); (5, 2, 7, 0, "hdks"); (5, 2, 7, 1, "hdkp");
    (5, 2, 7, 2, "hdkd"); (5, 2, 7, 3, "hdkf"); (5, 2, 7, 4, "hdkg"); (5, 2, 7, 5, "hdkh");
    (5, 2, 7, 6, "hdki"); (5, 2, 7, 7, "hdkk"); (5, 3, 0, 7, "hfsk"); (5, 3, 1, 7, "hfpk");
    (5, 3, 2, 7, "hfdk"); (5, 3, 3, 7, "hffk"); (5, 3, 4, 7, "hfgk"); (5, 3, 5, 7, "hfhk");
    (5, 3, 6, 7, "hfik"); (5, 3, 7, 0, "hfks"); (5, 3, 7, 1, "hfkp"); (5, 3, 7, 2, "hfkd");
    (5, 3, 7, 3, "hfkf"); (5, 3, 7, 4, "hfkg"); (5, 3, 7, 5, "hfkh"); (5, 3, 7, 6, "hfki");
    (5, 3, 7, 7, "hfkk"); (5, 4, 0, 7, "hgsk"); (5, 4, 1, 7, "hgpk"); (5, 4, 2, 7, "hgdk");
    (5, 4, 3, 7, "hgfk"); (5, 4, 4, 7, "hggk"); (5, 4, 5, 7, "hghk"); (5, 4, 6, 7, "hgik");
    (5, 4, 7, 0, "hgks"); (5, 4, 7, 1, "hgkp"); (5, 4, 7, 2, "hgkd"); (5, 4, 7, 3, "hgkf");
    (5, 4, 7, 4, "hgkg"); (5, 4, 7, 5, "hgkh"); (5, 4, 7, 6, "hgki"); (5, 4, 7, 7, "hgkk");
    (5, 5, 0, 7, "hhsk"); (5, 5, 1, 7, "hhpk"); (5, 5, 2, 7, "hhdk"); (5, 5, 3, 7, "hhfk");
    (5, 5, 4, 7, "hhgk"); (5, 5, 5, 7, "hhhk"); (5, 5, 6, 7, "hhik"); (5, 5, 7, 0, "hhks");
    (5, 5, 7, 1, "hhkp"); (5, 5, 7, 2, "hhkd"); (5, 5, 7, 3, "hhkf"); (5, 5, 7, 4, "hhkg");
    (5, 5, 7, 5, "hhkh"); (5, 5, 7, 6, "hhki"); (5, 5, 7, 7, "hhkk"); (5, 6, 0, 7, "hisk");
    (5, 6, 1, 7, "hipk"); (5, 6, 2, 7, "hidk"); (5, 6, 3, 7, "hifk"); (5, 6, 4, 7, "higk");
    (5, 6, 5, 7, "hihk"); (5, 6, 6, 7, "hiik"); (5, 6, 7, 0, "hiks"); (5, 6, 7, 1, "hikp");
    (5, 6, 7, 2, "hikd"); (5, 6, 7, 3, "hikf"); (5, 6, 7, 4, "hikg"); (5, 6, 7, 5, "hikh");
    (5, 6, 7, 6, "hiki"); (5, 6, 7, 7, "hikk"); (5, 7, 0, 0, "hkss"); (5, 7, 0, 1, "hksp");
    (5, 7, 0, 2, "hksd"); (5, 7, 0, 3, "hksf"); (5, 7, 0, 4, "hksg"); (5, 7, 0, 5, "hksh");
    (5, 7, 0, 6, "hksi"); (5, 7, 0, 7, "hksk"); (5, 7, 1, 0, "hkps"); (5, 7, 1, 1, "hkpp");
    (5, 7, 1, 2, "hkpd"); (5, 7, 1, 3, "hkpf"); (5, 7, 1, 4, "hkpg"); (5, 7, 1, 5, "hkph");
    (5, 7, 1, 6, "hkpi"); (5, 7, 1, 7, "hkpk"); (5, 7, 2, 0, "hkds"); (5, 7, 2, 1, "hkdp");
    (5, 7, 2, 2, "hkdd"); (5, 7, 2, 3, "hkdf"); (5, 7, 2, 4, "hkdg"); (5, 7, 2, 5, "hkdh");
    (5, 7, 2, 6, "hkdi"); (5, 7, 2, 7, "hkdk"); (5, 7, 3, 0, "hkfs"); (5, 7, 3, 1, "hkfp");
    (5, 7, 3, 2, "hkfd"); (5, 7, 3, 3, "hkff"); (5, 7, 3, 4, "hkfg"); (5, 7, 3, 5, "hkfh");
    (5, 7, 3, 6, "hkfi"); (5, 7, 3, 7, "hkfk"); (5, 7, 4, 0, "hkgs"); (5, 7, 4, 1, "hkgp");
    (5, 7, 4, 2, "hkgd"); (5, 7, 4, 3, "hkgf"); (5, 7, 4, 4, "hkgg"); (5, 7, 4, 5, "hkgh");
    (5, 7, 4, 6, "hkgi"); (5, 7, 4, 7, "hkgk"); (5, 7, 5, 0, "hkhs"); (5, 7, 5, 1, "hkhp");
    (5, 7, 5, 2, "hkhd"); (5, 7, 5, 3, "hkhf"); (5, 7, 5, 4, "hkhg"); (5, 7, 5, 5, "hkhh");
    (5, 7, 5, 6, "hkhi"); (5, 7, 5, 7, "hkhk"); (5, 7, 6, 0, "hkis"); (5, 7, 6, 1, "hkip");
    (5, 7, 6, 2, "hkid"); (5, 7, 6, 3, "hkif"); (5, 7, 6, 4, "hkig"); (5, 7, 6, 5, "hkih");
    (5, 7, 6, 6, "hkii"); (5, 7, 6, 7, "hkik"); (5, 7, 7, 0, "hkks"); (5, 7, 7, 1, "hkkp");
    (5, 7, 7, 2, "hkkd"); (5, 7, 7, 3, "hkkf"); (5, 7, 7, 4, "hkkg"); (5, 7, 7, 5, "hkkh");
    (5, 7, 7, 6, "hkki"); (5, 7, 7, 7, "hkkk"); (6, 0, 0, 7, "issk"); (6, 0, 1, 7, "ispk");
    (6, 0, 2, 7, "isdk"); (6, 0, 3, 7, "isfk"); (6, 0, 4, 7, "isgk"); (6, 0, 5, 7, "ishk");
    (6, 0, 6, 7, "isik"); (6, 0, 7, 0, "isks"); (6, 0, 7, 1, "iskp"); (6, 0, 7, 2, "iskd");
    (6, 0, 7, 3, "iskf"); (6, 0, 7, 4, "iskg"); (6, 0, 7, 5, "iskh"); (6, 0, 7, 6, "iski");
    (6, 0, 7, 7, "iskk"); (6, 1, 0, 7, "ipsk"); (6, 1, 1, 7, "ippk"); (6, 1, 2, 7, "ipdk");
    (6, 1, 3, 7, "ipfk"); (6, 1, 4, 7, "ipgk"); (6, 1, 5, 7, "iphk"); (6, 1, 6, 7, "ipik");
    (6, 1, 7, 0, "ipks"); (6, 1, 7, 1, "ipkp"); (6, 1, 7, 2, "ipkd"); (6, 1, 7, 3, "ipkf");
    (6, 1, 7, 4, "ipkg"); (6, 1, 7, 5, "ipkh"); (6, 1, 7, 6, "ipki"); (6, 1, 7, 7, "ipkk");
    (6, 2, 0, 7, "idsk"); (6, 2, 1, 7, "idpk"); (6, 2, 2, 7, "iddk"); (6, 2, 3, 7, "idfk");
    (6, 2, 4, 7, "idgk"); (6, 2, 5, 7, "idhk"); (6, 2, 6, 7, "idik"); (6, 2, 7, 0, "idks");
    (6, 2, 7, 1, "idkp"); (6, 2, 7, 2, "idkd"); (6, 2, 7, 3, "idkf"); (6, 2, 7, 4, "idkg");
    (6, 2, 7, 5, "idkh"); (6, 2, 7, 6, "idki"); (6, 2, 7, 7, "idkk"); (6, 3, 0, 7, "ifsk");
    (6, 3, 1, 7, "ifpk"); (6, 3, 2, 7, "ifdk"); (6, 3, 3, 7, "iffk"); (6, 3, 4, 7, "ifgk");
    (6, 3, 5, 7, "ifhk"); (6, 3, 6, 7, "ifik"); (6, 3, 7, 0, "ifks"); (6, 3, 7, 1, "ifkp");
    (6, 3, 7, 2, "ifkd"); (6, 3, 7, 3, "ifkf"); (6, 3, 7, 4, "ifkg"); (6, 3, 7, 5, "ifkh");
    (6, 3, 7, 6, "ifki"); (6, 3, 7, 7, "ifkk"); (6, 4, 0, 7, "igsk"); (6, 4, 1, 7, "igpk");
    (6, 4, 2, 7, "igdk"); (6, 4, 3, 7, "igfk"); (6, 4, 4, 7, "iggk"); (6, 4, 5, 7, "ighk");
    (6, 4, 6, 7, "igik"); (6, 4, 7, 0, "igks"); (6, 4, 7, 1, "igkp"); (6, 4, 7, 2, "igkd");
    (6, 4, 7, 3, "igkf"); (6, 4, 7, 4, "igkg"); (6, 4, 7, 5, "igkh"); (6, 4, 7, 6, "igki");
    (6, 4, 7, 7, "igkk"); (6, 5, 0, 7, "ihsk"); (6, 5, 1, 7, "ihpk"); (6, 5, 2, 7, "ihdk");
    (6, 5, 3, 7, "ihfk"); (6, 5, 4, 7, "ihgk"); (6, 5, 5, 7, "ihhk"); (6, 5, 6, 7, "ihik");
    (6, 5, 7, 0, "ihks"); (6, 5, 7, 1, "ihkp"); (6, 5, 7, 2, "ihkd"); (6, 5, 7, 3, "ihkf");
    (6, 5, 7, 4, "ihkg"); (6, 5, 7, 5, "ihkh"); (6, 5, 7, 6, "ihki"); (6, 5, 7, 7, "ihkk");
    (6, 6, 0, 7, "iisk"); (6, 6, 1, 7, "iipk"); (6, 6, 2, 7, "iidk"); (6, 6, 3, 7, "iifk");
    (6, 6, 4, 7, "iigk"); (6, 6, 5, 7, "iihk"); (6, 6, 6, 7, "iiik"); (6, 6, 7, 0, "iiks");
    (6, 6, 7, 1, "iikp"); (6, 6, 7, 2, "iikd"); (6, 6, 7, 3, "iikf"); (6, 6, 7, 4, "iikg");
    (6, 6, 7, 5, "iikh"); (6, 6, 7, 6, "iiki"); (6, 6, 7, 7, "iikk"); (6, 7, 0, 0, "ikss");
    (6, 7, 0, 1, "iksp"); (6, 7, 0, 2, "iksd"); (6, 7, 0, 3, "iksf"); (6, 7, 0, 4, "iksg");
    (6, 7, 0, 5, "iksh"); (6, 7, 0, 6, "iksi"); (6, 7, 0, 7, "iksk"); (6, 7, 1, 0, "ikps");
    (6, 7, 1, 1, "ikpp"); (6, 7, 1, 2, "ikpd"); (6, 7, 1, 3, "ikpf"); (6, 7, 1, 4, "ikpg");
    (6, 7, 1, 5, "ikph"); (6, 7, 1, 6, "ikpi"); (6, 7, 1, 7, "ikpk"); (6, 7, 2, 0, "ikds");
    (6, 7, 2, 1, "ikdp"); (6, 7, 2, 2, "ikdd"); (6, 7, 2, 3, "ikdf"); (6, 7, 2, 4, "ikdg");
    (6, 7, 2, 5, "ikdh"); (6, 7, 2, 6, "ikdi"); (6, 7, 2, 7, "ikdk"); (6, 7, 3, 0, "ikfs");
    (6, 7, 3, 1, "ikfp"); (6, 7, 3, 2, "ikfd"); (6, 7, 3, 3, "ikff"); (6, 7, 3, 4, "ikfg");
    (6, 7, 3, 5, "ikfh"); (6, 7, 3, 6, "ikfi"); (6, 7, 3, 7, "ikfk"); (6, 7, 4, 0, "ikgs");
    (6, 7, 4, 1, "ikgp"); (6, 7, 4, 2, "ikgd"); (6, 7, 4, 3, "ikgf"); (6, 7, 4, 4, "ikgg");
    (6, 7, 4, 5, "ikgh"); (6, 7, 4, 6, "ikgi"); (6, 7, 4, 7, "ikgk"); (6, 7, 5, 0, "ikhs");
    (6, 7, 5, 1, "ikhp"); (6, 7, 5, 2, "ikhd"); (6, 7, 5, 3, "ikhf"); (6, 7, 5, 4, "ikhg");
    (6, 7, 5, 5, "ikhh"); (6, 7, 5, 6, "ikhi"); (6, 7, 5, 7, "ikhk"); (6, 7, 6, 0, "ikis");
    (6, 7, 6, 1, "ikip"); (6, 7, 6, 2, "ikid"); (6, 7, 6, 3, "ikif"); (6, 7, 6, 4, "ikig");
    (6, 7, 6, 5, "ikih"); (6, 7, 6, 6, "ikii"); (6, 7, 6, 7, "ikik"); (6, 7, 7, 0, "ikks");
    (6, 7, 7, 1, "ikkp"); (6, 7, 7, 2, "ikkd"); (6, 7, 7, 3, "ikkf"); (6, 7, 7, 4, "ikkg");
    (6, 7, 7, 5, "ikkh"); (6, 7, 7, 6, "ikki"); (6, 7, 7, 7, "ikkk"); (7, 0, 0, 0, "ksss");
    (7, 0, 0, 1, "kssp"); (7, 0, 0, 2, "kssd"); (7, 0, 0, 3, "kssf"); (7, 0, 0, 4, "kssg");
    (7, 0, 0, 5, "kssh"); (7, 0, 0, 6, "kssi"); (7, 0, 0, 7, "kssk"); (7, 0, 1, 0, "ksps");
    (7, 0, 1, 1, "kspp"); (7, 0, 1, 2, "kspd"); (7, 0, 1, 3, "kspf"); (7, 0, 1, 4, "kspg");
    (7, 0, 1, 5, "ksph"); (7, 0, 1, 6, "kspi"); (7, 0, 1, 7, "kspk"); (7, 0, 2, 0, "ksds");
    (7, 0, 2, 1, "ksdp"); (7, 0, 2, 2, "ksdd"); (7, 0, 2, 3, "ksdf"); (7, 0, 2, 4, "ksdg");
    (7, 0, 2, 5, "ksdh"); (7, 0, 2, 6, "ksdi"); (7, 0, 2, 7, "ksdk"); (7, 0, 3, 0, "ksfs");
    (7, 0, 3, 1, "ksfp"); (7, 0, 3, 2, "ksfd"); (7, 0, 3, 3, "ksff"); (7, 0, 3, 4, "ksfg");
    (7, 0, 3, 5, "ksfh"); (7, 0, 3, 6, "ksfi"); (7, 0, 3, 7, "ksfk"); (7, 0, 4, 0, "ksgs");
    (7, 0, 4, 1, "ksgp"); (7, 0, 4, 2, "ksgd"); (7, 0, 4, 3, "ksgf"); (7, 0, 4, 4, "ksgg");
    (7, 0, 4, 5, "ksgh"); (7, 0, 4, 6, "ksgi"); (7, 0, 4, 7, "ksgk"); (7, 0, 5, 0, "kshs");
    (7, 0, 5, 1, "kshp"); (7, 0, 5, 2, "kshd"); (7, 0, 5, 3, "kshf"); (7, 0, 5, 4, "kshg");
    (7, 0, 5, 5, "kshh"); (7, 0, 5, 6, "kshi"); (7, 0, 5, 7, "kshk"); (7, 0, 6, 0, "ksis");
    (7, 0, 6, 1, "ksip"); (7, 0, 6, 2, "ksid"); (7, 0, 6, 3, "ksif"); (7, 0, 6, 4, "ksig");
    (7, 0, 6, 5, "ksih"); (7, 0, 6, 6, "ksii"); (7, 0, 6, 7, "ksik"); (7, 0, 7, 0, "ksks");
    (7, 0, 7, 1, "kskp"); (7, 0, 7, 2, "kskd"); (7, 0, 7, 3, "kskf"); (7, 0, 7, 4, "kskg");
    (7, 0, 7, 5, "kskh"); (7, 0, 7, 6, "kski"); (7, 0, 7, 7, "kskk"); (7, 1, 0, 0, "kpss");
    (7, 1, 0, 1, "kpsp"); (7, 1, 0, 2, "kpsd"); (7, 1, 0, 3, "kpsf"); (7, 1, 0, 4, "kpsg");
    (7, 1, 0, 5, "kpsh"); (7, 1, 0, 6, "kpsi"); (7, 1, 0, 7, "kpsk"); (7, 1, 1, 0, "kpps");
    (7, 1, 1, 1, "kppp"); (7, 1, 1, 2, "kppd"); (7, 1, 1, 3, "kppf"); (7, 1, 1, 4, "kppg");
    (7, 1, 1, 5, "kpph"); (7, 1, 1, 6, "kppi"); (7, 1, 1, 7, "kppk"); (7, 1, 2, 0, "kpds");
    (7, 1, 2, 1, "kpdp"); (7, 1, 2, 2, "kpdd"); (7, 1, 2, 3, "kpdf"); (7, 1, 2, 4, "kpdg");
    (7, 1, 2, 5, "kpdh"); (7, 1, 2, 6, "kpdi"); (7, 1, 2, 7, "kpdk"); (7, 1, 3, 0, "kpfs");
    (7, 1, 3, 1, "kpfp"); (7, 1, 3, 2, "kpfd"); (7, 1, 3, 3, "kpff"); (7, 1, 3, 4, "kpfg");
    (7, 1, 3, 5, "kpfh"); (7, 1, 3, 6, "kpfi"); (7, 1, 3, 7, "kpfk"); (7, 1, 4, 0, "kpgs");
    (7, 1, 4, 1, "kpgp"); (7, 1, 4, 2, "kpgd"); (7, 1, 4, 3, "kpgf"); (7, 1, 4, 4, "kpgg");
    (7, 1, 4, 5, "kpgh"); (7, 1, 4, 6, "kpgi"); (7, 1, 4, 7, "kpgk"); (7, 1, 5, 0, "kphs");
    (7, 1, 5, 1, "kphp"); (7, 1, 5, 2, "kphd"); (7, 1, 5, 3, "kphf"); (7, 1, 5, 4, "kphg");
    (7, 1, 5, 5, "kphh"); (7, 1, 5, 6, "kphi"); (7, 1, 5, 7, "kphk"); (7, 1, 6, 0, "kpis");
    (7, 1, 6, 1, "kpip"); (7, 1, 6, 2, "kpid"); (7, 1, 6, 3, "kpif"); (7, 1, 6, 4, "kpig");
    (7, 1, 6, 5, "kpih"); (7, 1, 6, 6, "kpii"); (7, 1, 6, 7, "kpik"); (7, 1, 7, 0, "kpks");
    (7, 1, 7, 1, "kpkp"); (7, 1, 7, 2, "kpkd"); (7, 1, 7, 3, "kpkf"); (7, 1, 7, 4, "kpkg");
    (7, 1, 7, 5, "kpkh"); (7, 1, 7, 6, "kpki"); (7, 1, 7, 7, "kpkk"); (7, 2, 0, 0, "kdss");
    (7, 2, 0, 1, "kdsp"); (7, 2, 0, 2, "kdsd"); (7, 2, 0, 3, "kdsf"); (7, 2, 0, 4, "kdsg");
    (7, 2, 0, 5, "kdsh"); (7, 2, 0, 6, "kdsi"); (7, 2, 0, 7, "kdsk"); (7, 2, 1, 0, "kdps");
    (7, 2, 1, 1, "kdpp"); (7, 2, 1, 2, "kdpd"); (7, 2, 1, 3, "kdpf"); (7, 2, 1, 4, "kdpg");
    (7, 2, 1, 5, "kdph"); (7, 2, 1, 6, "kdpi"); (7, 2, 1, 7, "kdpk"); (7, 2, 2, 0, "kdds");
    (7, 2, 2, 1, "kddp"); (7, 2, 2, 2, "kddd"); (7, 2, 2, 3, "kddf"); (7, 2, 2, 4, "kddg");
    (7, 2, 2, 5, "kddh"); (7, 2, 2, 6, "kddi"); (7, 2, 2, 7, "kddk"); (7, 2, 3, 0, "kdfs");
    (7, 2, 3, 1, "kdfp"); (7, 2, 3, 2, "kdfd"); (7, 2, 3, 3, "kdff"); (7, 2, 3, 4, "kdfg");
    (7, 2, 3, 5, "kdfh"); (7, 2, 3, 6, "kdfi"); (7, 2, 3, 7, "kdfk"); (7, 2, 4, 0, "kdgs");
    (7, 2, 4, 1, "kdgp"); (7, 2, 4, 2, "kdgd"); (7, 2, 4, 3, "kdgf"); (7, 2, 4, 4, "kdgg");
    (7, 2, 4, 5, "kdgh"); (7, 2, 4, 6, "kdgi"); (7, 2, 4, 7, "kdgk"); (7, 2, 5, 0, "kdhs");
    (7, 2, 5, 1, "kdhp"); (7, 2, 5, 2, "kdhd"); (7, 2, 5, 3, "kdhf"); (7, 2, 5, 4, "kdhg");
    (7, 2, 5, 5, "kdhh"); (7, 2, 5, 6, "kdhi"); (7, 2, 5, 7, "kdhk"); (7, 2, 6, 0, "kdis");
    (7, 2, 6, 1, "kdip"); (7, 2, 6, 2, "kdid"); (7, 2, 6, 3, "kdif"); (7, 2, 6, 4, "kdig");
    (7, 2, 6, 5, "kdih"); (7, 2, 6, 6, "kdii"); (7, 2, 6, 7, "kdik"); (7, 2, 7, 0, "kdks");
    (7, 2, 7, 1, "kdkp"); (7, 2, 7, 2, "kdkd"); (7, 2, 7, 3, "kdkf"); (7, 2, 7, 4, "kdkg");
    (7, 2, 7, 5, "kdkh"); (7, 2, 7, 6, "kdki"); (7, 2, 7, 7, "kdkk"); (7, 3, 0, 0, "kfss");
    (7, 3, 0, 1, "kfsp"); (7, 3, 0, 2, "kfsd"); (7, 3, 0, 3, "kfsf"); (7, 3, 0, 4, "kfsg");
    (7, 3, 0, 5, "kfsh"); (7, 3, 0, 6, "kfsi"); (7, 3, 0, 7, "kfsk"); (7, 3, 1, 0, "kfps");
    (7, 3, 1, 1, "kfpp"); (7, 3, 1, 2, "kfpd"); (7, 3, 1, 3, "kfpf"); (7, 3, 1, 4, "kfpg");
    (7, 3, 1, 5, "kfph"); (7, 3, 1, 6, "kfpi"); (7, 3, 1, 7, "kfpk"); (7, 3, 2, 0, "kfds");
    (7, 3, 2, 1, "kfdp"); (7, 3, 2, 2, "kfdd"); (7, 3, 2, 3, "kfdf"); (7, 3, 2, 4, "kfdg");
    (7, 3, 2, 5, "kfdh"); (7, 3, 2, 6, "kfdi"); (7, 3, 2, 7, "kfdk"); (7, 3, 3, 0, "kffs");
    (7, 3, 3, 1, "kffp"); (7, 3, 3, 2, "kffd"); (7, 3, 3, 3, "kfff"); (7, 3, 3, 4, "kffg");
    (7, 3, 3, 5, "kffh"); (7, 3, 3, 6, "kffi"); (7, 3, 3, 7, "kffk"); (7, 3, 4, 0, "kfgs");
    (7, 3, 4, 1, "kfgp"); (7, 3, 4, 2, "kfgd"); (7, 3, 4, 3, "kfgf"); (7, 3, 4, 4, "kfgg");
    (7, 3, 4, 5, "kfgh"); (7, 3, 4, 6, "kfgi"); (7, 3, 4, 7, "kfgk"); (7, 3, 5, 0, "kfhs");
    (7, 3, 5, 1, "kfhp"); (7, 3, 5, 2, "kfhd"); (7, 3, 5, 3, "kfhf"); (7, 3, 5, 4, "kfhg");
    (7, 3, 5, 5, "kfhh"); (7, 3, 5, 6, "kfhi"); (7, 3, 5, 7, "kfhk"); (7, 3, 6, 0, "kfis");
    (7, 3, 6, 1, "kfip"); (7, 3, 6, 2, "kfid"); (7, 3, 6, 3, "kfif"); (7, 3, 6, 4, "kfig");
    (7, 3, 6, 5, "kfih"); (7, 3, 6, 6, "kfii"); (7, 3, 6, 7, "kfik"); (7, 3, 7, 0, "kfks");
    (7, 3, 7, 1, "kfkp"); (7, 3, 7, 2, "kfkd"); (7, 3, 7, 3, "kfkf"); (7, 3, 7, 4, "kfkg");
    (7, 3, 7, 5, "kfkh"); (7, 3, 7, 6, "kfki"); (7, 3, 7, 7, "kfkk"); (7, 4, 0, 0, "kgss");
    (7, 4, 0, 1, "kgsp"); (7, 4, 0, 2, "kgsd"); (7, 4, 0, 3, "kgsf"); (7, 4, 0, 4, "kgsg");
    (7, 4, 0, 5, "kgsh"); (7, 4, 0, 6, "kgsi"); (7, 4, 0, 7, "kgsk"); (7, 4, 1, 0, "kgps");
    (7, 4, 1, 1, "kgpp"); (7, 4, 1, 2, "kgpd"); (7, 4, 1, 3, "kgpf"); (7, 4, 1, 4, "kgpg");
    (7, 4, 1, 5, "kgph"); (7, 4, 1, 6, "kgpi"); (7, 4, 1, 7, "kgpk"); (7, 4, 2, 0, "kgds");
    (7, 4, 2, 1, "kgdp"); (7, 4, 2, 2, "kgdd"); (7, 4, 2, 3, "kgdf"); (7, 4, 2, 4, "kgdg");
    (7, 4, 2, 5, "kgdh"); (7, 4, 2, 6, "kgdi"); (7, 4, 2, 7, "kgdk"); (7, 4, 3, 0, "kgfs");
    (7, 4, 3, 1, "kgfp"); (7, 4, 3, 2, "kgfd"); (7, 4, 3, 3, "kgff"); (7, 4, 3, 4, "kgfg");
    (7, 4, 3, 5, "kgfh"); (7, 4, 3, 6, "kgfi"); (7, 4, 3, 7, "kgfk"); (7, 4, 4, 0, "kggs");
    (7, 4, 4, 1, "kggp"); (7, 4, 4, 2, "kggd"); (7, 4, 4, 3, "kggf"); (7, 4, 4, 4, "kggg");
    (7, 4, 4, 5, "kggh"); (7, 4, 4, 6, "kggi"); (7, 4, 4, 7, "kggk"); (7, 4, 5, 0, "kghs");
    (7, 4, 5, 1, "kghp"); (7, 4, 5, 2, "kghd"); (7, 4, 5, 3, "kghf"); (7, 4, 5, 4, "kghg");
    (7, 4, 5, 5, "kghh"); (7, 4, 5, 6, "kghi"); (7, 4, 5, 7, "kghk"); (7, 4, 6, 0, "kgis");
    (7, 4, 6, 1, "kgip"); (7, 4, 6, 2, "kgid"); (7, 4, 6, 3, "kgif"); (7, 4, 6, 4, "kgig");
    (7, 4, 6, 5, "kgih"); (7, 4, 6, 6, "kgii"); (7, 4, 6, 7, "kgik"); (7, 4, 7, 0, "kgks");
    (7, 4, 7, 1, "kgkp"); (7, 4, 7, 2, "kgkd"); (7, 4, 7, 3, "kgkf"); (7, 4, 7, 4, "kgkg");
    (7, 4, 7, 5, "kgkh"); (7, 4, 7, 6, "kgki"); (7, 4, 7, 7, "kgkk"); (7, 5, 0, 0, "khss");
    (7, 5, 0, 1, "khsp"); (7, 5, 0, 2, "khsd"); (7, 5, 0, 3, "khsf"); (7, 5, 0, 4, "khsg");
    (7, 5, 0, 5, "khsh"); (7, 5, 0, 6, "khsi"); (7, 5, 0, 7, "khsk"); (7, 5, 1, 0, "khps");
    (7, 5, 1, 1, "khpp"); (7, 5, 1, 2, "khpd"); (7, 5, 1, 3, "khpf"); (7, 5, 1, 4, "khpg");
    (7, 5, 1, 5, "khph"); (7, 5, 1, 6, "khpi"); (7, 5, 1, 7, "khpk"); (7, 5, 2, 0, "khds");
    (7, 5, 2, 1, "khdp"); (7, 5, 2, 2, "khdd"); (7, 5, 2, 3, "khdf"); (7, 5, 2, 4, "khdg");
    (7, 5, 2, 5, "khdh"); (7, 5, 2, 6, "khdi"); (7, 5, 2, 7, "khdk"); (7, 5, 3, 0, "khfs");
    (7, 5, 3, 1, "khfp"); (7, 5, 3, 2, "khfd"); (7, 5, 3, 3, "khff"); (7, 5, 3, 4, "khfg");
    (7, 5, 3, 5, "khfh"); (7, 5, 3, 6, "khfi"); (7, 5, 3, 7, "khfk"); (7, 5, 4, 0, "khgs");
    (7, 5, 4, 1, "khgp"); (7, 5, 4, 2, "khgd"); (7, 5, 4, 3, "khgf"); (7, 5, 4, 4, "khgg");
    (7, 5, 4, 5, "khgh"); (7, 5, 4, 6, "khgi"); (7, 5, 4, 7, "khgk"); (7, 5, 5, 0, "khhs");
    (7, 5, 5, 1, "khhp"); (7, 5, 5, 2, "khhd"); (7, 5, 5, 3, "khhf"); (7, 5, 5, 4, "khhg");
    (7, 5, 5, 5, "khhh"); (7, 5, 5, 6, "khhi"); (7, 5, 5, 7, "khhk"); (7, 5, 6, 0, "khis");
    (7, 5, 6, 1, "khip"); (7, 5, 6, 2, "khid"); (7, 5, 6, 3, "khif"); (7, 5, 6, 4, "khig");
    (7, 5, 6, 5, "khih"); (7, 5, 6, 6, "khii"); (7, 5, 6, 7, "khik"); (7, 5, 7, 0, "khks");
    (7, 5, 7, 1, "khkp"); (7, 5, 7, 2, "khkd"); (7, 5, 7, 3, "khkf"); (7, 5, 7, 4, "khkg");
    (7, 5, 7, 5, "khkh"); (7, 5, 7, 6, "khki"); (7, 5, 7, 7, "khkk"); (7, 6, 0, 0, "kiss");
    (7, 6, 0, 1, "kisp"); (7, 6, 0, 2, "kisd"); (7, 6, 0, 3, "kisf"); (7, 6, 0, 4, "kisg");
    (7, 6, 0, 5, "kish"); (7, 6, 0, 6, "kisi"); (7, 6, 0, 7, "kisk"); (7, 6, 1, 0, "kips");
    (7, 6, 1, 1, "kipp"); (7, 6, 1, 2, "kipd"); (7, 6, 1, 3, "kipf"); (7, 6, 1, 4, "kipg");
    (7, 6, 1, 5, "kiph"); (7, 6, 1, 6, "kipi"); (7, 6, 1, 7, "kipk"); (7, 6, 2, 0, "kids");
    (7, 6, 2, 1, "kidp"); (7, 6, 2, 2, "kidd"); (7, 6, 2, 3, "kidf"); (7, 6, 2, 4, "kidg");
    (7, 6, 2, 5, "kidh"); (7, 6, 2, 6, "kidi"); (7, 6, 2, 7, "kidk"); (7, 6, 3, 0, "kifs");
    (7, 6, 3, 1, "kifp"); (7, 6, 3, 2, "kifd"); (7, 6, 3, 3, "kiff"); (7, 6, 3, 4, "kifg");
    (7, 6, 3, 5, "kifh"); (7, 6, 3, 6, "kifi"); (7, 6, 3, 7, "kifk"); (7, 6, 4, 0, "kigs");
    (7, 6, 4, 1, "kigp"); (7, 6, 4, 2, "kigd"); (7, 6, 4, 3, "kigf"); (7, 6, 4, 4, "kigg");
    (7, 6, 4, 5, "kigh"); (7, 6, 4, 6, "kigi"); (7, 6, 4, 7, "kigk"); (7, 6, 5, 0, "kihs");
    (7, 6, 5, 1, "kihp"); (7, 6, 5, 2, "kihd"); (7, 6, 5, 3, "kihf"); (7, 6, 5, 4, "kihg");
    (7, 6, 5, 5, "kihh"); (7, 6, 5, 6, "kihi"); (7, 6, 5, 7, "kihk"); (7, 6, 6, 0, "kiis");
    (7, 6, 6, 1, "kiip"); (7, 6, 6, 2, "kiid"); (7, 6, 6, 3, "kiif"); (7, 6, 6, 4, "kiig");
    (7, 6, 6, 5, "kiih"); (7, 6, 6, 6, "kiii"); (7, 6, 6, 7, "kiik"); (7, 6, 7, 0, "kiks");
    (7, 6, 7, 1, "kikp"); (7, 6, 7, 2, "kikd"); (7, 6, 7, 3, "kikf"); (7, 6, 7, 4, "kikg");
    (7, 6, 7, 5, "kikh"); (7, 6, 7, 6, "kiki"); (7, 6, 7, 7, "kikk"); (7, 7, 0, 0, "kkss");
    (7, 7, 0, 1, "kksp"); (7, 7, 0, 2, "kksd"); (7, 7, 0, 3, "kksf"); (7, 7, 0, 4, "kksg");
    (7, 7, 0, 5, "kksh"); (7, 7, 0, 6, "kksi"); (7, 7, 0, 7, "kksk"); (7, 7, 1, 0, "kkps");
    (7, 7, 1, 1, "kkpp"); (7, 7, 1, 2, "kkpd"); (7, 7, 1, 3, "kkpf"); (7, 7, 1, 4, "kkpg");
    (7, 7, 1, 5, "kkph"); (7, 7, 1, 6, "kkpi"); (7, 7, 1, 7, "kkpk"); (7, 7, 2, 0, "kkds");
    (7, 7, 2, 1, "kkdp"); (7, 7, 2, 2, "kkdd"); (7, 7, 2, 3, "kkdf"); (7, 7, 2, 4, "kkdg");
    (7, 7, 2, 5, "kkdh"); (7, 7, 2, 6, "kkdi"); (7, 7, 2, 7, "kkdk"); (7, 7, 3, 0, "kkfs");
    (7, 7, 3, 1, "kkfp"); (7, 7, 3, 2, "kkfd"); (7, 7, 3, 3, "kkff"); (7, 7, 3, 4, "kkfg");
    (7, 7, 3, 5, "kkfh"); (7, 7, 3, 6, "kkfi"); (7, 7, 3, 7, "kkfk"); (7, 7, 4, 0, "kkgs");
    (7, 7, 4, 1, "kkgp"); (7, 7, 4, 2, "kkgd"); (7, 7, 4, 3, "kkgf"); (7, 7, 4, 4, "kkgg");
    (7, 7, 4, 5, "kkgh"); (7, 7, 4, 6, "kkgi"); (7, 7, 4, 7, "kkgk"); (7, 7, 5, 0, "kkhs");
    (7, 7, 5, 1, "kkhp"); (7, 7, 5, 2, "kkhd"); (7, 7, 5, 3, "kkhf"); (7, 7, 5, 4, "kkhg");
    (7, 7, 5, 5, "kkhh"); (7, 7, 5, 6, "kkhi"); (7, 7, 5, 7, "kkhk"); (7, 7, 6, 0, "kkis");
    (7, 7, 6, 1, "kkip"); (7, 7, 6, 2, "kkid"); (7, 7, 6, 3, "kkif"); (7, 7, 6, 4, "kkig");
    (7, 7, 6, 5, "kkih"); (7, 7, 6, 6, "kkii"); (7, 7, 6, 7, "kkik"); (7, 7, 7, 0, "kkks");
    (7, 7, 7, 1, "kkkp"); (7, 7, 7, 2, "kkkd"); (7, 7, 7, 3, "kkkf"); (7, 7, 7, 4, "kkkg");
    (7, 7, 7, 5, "kkkh"); (7, 7, 7, 6, "kkki"); (7, 7, 7, 7, "kkkk")])].

