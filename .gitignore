*.vo
*.vok
*.vos
*.glob
.*.aux
*.cache
.Makefile*
Makefile
Makefile.conf
.lia.cache
.nra.cache
