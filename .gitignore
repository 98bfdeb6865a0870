*.vo
*.vok
*.vos
*.glob
*.aux
.*.aux
*.cache
.lia.cache
.nia.cache
.Makefile.d
.coqdeps.d
Makefile
Makefile.conf
CoqMakefile*
