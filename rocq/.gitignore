*.aux
*.d
*.glob
*.vo
*.vok
*.vos
.*.cache
.Makefile.d
.lia.cache
.nra.cache
Makefile
Makefile.conf
