*.vo
*.vok
*.vos
*.glob
*.aux
.*.aux
.lia.cache
.nia.cache
.nra.cache
Makefile
Makefile.conf
.Makefile.d
*.d
.coqdeps.d
CoqMakefile.conf
