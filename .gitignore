*.vo
*.vok
*.vos
*.glob
*.aux
.*.aux
*.lia.cache
*.nia.cache
*.nra.cache
.lia.cache
.nia.cache
.nra.cache
.Makefile.d
rocq/Makefile
rocq/Makefile.conf
