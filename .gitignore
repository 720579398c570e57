*.vo
*.vok
*.vos
*.glob
*.aux
.*.aux
.nia.cache
.lia.cache
.coqdeps.d
Makefile
Makefile.conf
.Makefile.d
.nra.cache
